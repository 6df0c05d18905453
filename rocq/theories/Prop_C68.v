(* C68: estimates from groups add up, do not depend on the order of the groups, say when data is missing;
   the PPR78 interaction parameters are symmetric and meet their defining equation. *)
From Coq Require Import Reals List Arith ZArith String Bool Lra Lia Permutation.
From Verif Require Import Base BaseFacts Gen_joback Model_groups Spec_groups.
Import ListNotations.
Local Open Scope R_scope.

(* ------------------------------------------------------------------ Joback *)
Section J.
Variable tbl : nat -> option jgroup.

Lemma jtot_none : forall f cs, fold_left (jstep tbl f) cs None = None.
Proof. induction cs; simpl; auto. Qed.

Lemma jtot_from : forall f cs t0 t,
  fold_left (jstep tbl f) cs (Some t0) = Some t <-> exists s, adds_up (contrib tbl f) cs s /\ t = t0 + s.
Proof.
  induction cs as [|[g n] cs IH]; intros t0 t; cbn [fold_left].
  - split.
    + intros H; injection H as <-. exists 0. split; [constructor | lra].
    + intros (s & H & ->). inversion H; subst. f_equal; lra.
  - unfold jstep at 2. cbn [fst snd]. split.
    + intros H. destruct (tbl g) as [r|] eqn:Eg; [|rewrite jtot_none in H; discriminate].
      destruct (f r) as [v|] eqn:Ef; [|rewrite jtot_none in H; discriminate].
      apply IH in H. destruct H as (s & Hs & ->). exists (INR n * v + s). split; [|lra].
      constructor; auto. unfold contrib. rewrite Eg. exact Ef.
    + intros (s & Hs & ->). inversion Hs as [|g' n' cs' x t' Hc Ha E1 E2]; subst.
      unfold contrib in Hc. destruct (tbl g) as [r|]; [|discriminate]. rewrite Hc.
      apply IH. exists t'. split; auto. lra.
Qed.

Lemma jtot_sum : forall f cs t, jtot tbl f cs = Some t <-> adds_up (contrib tbl f) cs t.
Proof.
  intros. unfold jtot. rewrite jtot_from. split.
  - intros (s & H & ->). replace (0 + s) with s by lra. exact H.
  - intros H. exists t. split; [auto | lra].
Qed.

Lemma jtot_None : forall f cs, jtot tbl f cs = None <-> exists g n, In (g, n) cs /\ contrib tbl f g = None.
Proof.
  intros f cs. split.
  - intros H. destruct (existsb (fun it => match contrib tbl f (fst it) with None => true | _ => false end) cs) eqn:E.
    + apply existsb_exists in E. destruct E as ([g n] & Hi & Hg). exists g, n. split; auto. cbn [fst] in Hg.
      destruct (contrib tbl f g); [discriminate | auto].
    + exfalso. assert (Hs : exists s, adds_up (contrib tbl f) cs s).
      { clear H. induction cs as [|[g n] cs IH]; [exists 0; constructor|].
        cbn [existsb fst] in E. apply orb_false_iff in E. destruct E as [E1 E2]. destruct (IH E2) as [s Hs].
        destruct (contrib tbl f g) as [x|] eqn:Eg; [|discriminate].
        exists (INR n * x + s). constructor; auto. }
      destruct Hs as [s Hs]. apply jtot_sum in Hs. congruence.
  - intros (g & n & Hi & Hg). destruct (jtot tbl f cs) as [t|] eqn:E; [|reflexivity].
    apply jtot_sum in E. exfalso. clear - E Hi Hg.
    induction E; [destruct Hi|]. destruct Hi as [Hi | Hi]; [injection Hi as -> ->; congruence | auto].
Qed.

Lemma adds_up_perm : forall c cs cs' t, Permutation cs cs' -> adds_up c cs t -> adds_up c cs' t.
Proof.
  intros c cs cs' t P. revert t. induction P; intros t H; auto.
  - inversion H; subst. constructor; auto.
  - inversion H as [|g n q x' t' Hc Ha]; subst. inversion Ha as [|g2 n2 q2 x2 t2 Hc2 Ha2]; subst.
    replace (INR n * x' + (INR n2 * x2 + t2)) with (INR n2 * x2 + (INR n * x' + t2)) by lra.
    constructor; auto. constructor; auto.
Qed.

Lemma jtot_perm : forall f cs cs', Permutation cs cs' -> jtot tbl f cs = jtot tbl f cs'.
Proof.
  intros f cs cs' P. destruct (jtot tbl f cs) as [t|] eqn:E.
  - symmetry. apply jtot_sum. eapply adds_up_perm; [exact P|]. apply jtot_sum; exact E.
  - symmetry. apply jtot_None. apply jtot_None in E. destruct E as (g & n & Hi & Hg).
    exists g, n. split; auto. eapply Permutation_in; eauto.
Qed.

Lemma omap_some : forall (h : R -> R) (o : option R) v, omap h o = Some v <-> exists t, o = Some t /\ v = h t.
Proof.
  intros h [t|] v; cbn [omap]; split.
  - intros H; injection H as <-. eauto.
  - intros (t' & H & ->). injection H as ->. reflexivity.
  - discriminate.
  - intros (t' & H & _). discriminate.
Qed.

(* The seven linear estimates: the answer is v exactly when every group present has a contribution to that
   property and v is the constant plus the sum of count times contribution. *)
Theorem C68_joback_linear : forall (cs : counts) (v : R),
  (jb_Tb tbl cs = Some v <-> exists t, adds_up (contrib tbl j_Tb) cs t /\ v = 198.2 + t) /\
  (jb_Tm tbl cs = Some v <-> exists t, adds_up (contrib tbl j_Tm) cs t /\ v = 122.5 + t) /\
  (jb_Vc tbl cs = Some v <-> exists t, adds_up (contrib tbl j_Vc) cs t /\ v * 1000000 = 17.5 + t) /\
  (jb_Hf tbl cs = Some v <-> exists t, adds_up (contrib tbl j_Hform) cs t /\ v / 1000 = 68.29 + t) /\
  (jb_Gf tbl cs = Some v <-> exists t, adds_up (contrib tbl j_Gform) cs t /\ v / 1000 = 53.88 + t) /\
  (jb_Hfus tbl cs = Some v <-> exists t, adds_up (contrib tbl j_Hfus) cs t /\ v / 1000 = -0.88 + t) /\
  (jb_Hvap tbl cs = Some v <-> exists t, adds_up (contrib tbl j_Hvap) cs t /\ v / 1000 = 15.3 + t).
Proof.
  intros cs v. unfold jb_Tb, jb_Tm, jb_Vc, jb_Hf, jb_Gf, jb_Hfus, jb_Hvap.
  repeat match goal with |- _ /\ _ => split end; rewrite omap_some;
    (split; intros (t & H & E); exists t;
     [ apply jtot_sum in H; split; [exact H | lra] | apply jtot_sum in H; split; [exact H | lra] ]).
Qed.

(* No answer exactly when some group present is unknown or has no contribution to the property,
   even if its count is zero. *)
Theorem C68_joback_missing : forall (cs : counts),
  let lacks f := exists g n, In (g, n) cs /\ contrib tbl f g = None in
  (jb_Tb tbl cs = None <-> lacks j_Tb) /\ (jb_Tm tbl cs = None <-> lacks j_Tm) /\
  (jb_Vc tbl cs = None <-> lacks j_Vc) /\ (jb_Hf tbl cs = None <-> lacks j_Hform) /\
  (jb_Gf tbl cs = None <-> lacks j_Gform) /\ (jb_Hfus tbl cs = None <-> lacks j_Hfus) /\
  (jb_Hvap tbl cs = None <-> lacks j_Hvap) /\
  (jb_Cpig_coeffs tbl cs = None <-> lacks j_Cpa \/ lacks j_Cpb \/ lacks j_Cpc \/ lacks j_Cpd) /\
  (jb_mul_coeffs tbl cs = None <-> lacks j_mua \/ lacks j_mub).
Proof.
  intros cs lacks.
  assert (O : forall h o, @omap R R h o = None <-> o = None)
    by (intros h [x|]; cbn [omap]; split; congruence).
  assert (N : forall f, jtot tbl f cs = None <-> lacks f) by (intros f; apply jtot_None).
  unfold jb_Tb, jb_Tm, jb_Vc, jb_Hf, jb_Gf, jb_Hfus, jb_Hvap, jb_Cpig_coeffs, jb_mul_coeffs.
  rewrite !O, <- !N.
  repeat match goal with |- (_ <-> _) /\ _ => split; [reflexivity|] end.
  split.
  - destruct (jtot tbl j_Cpa cs), (jtot tbl j_Cpb cs), (jtot tbl j_Cpc cs), (jtot tbl j_Cpd cs);
      split; try discriminate; auto; intros [H | [H | [H | H]]]; discriminate.
  - destruct (jtot tbl j_mua cs), (jtot tbl j_mub cs); split; try discriminate; auto; intros [H | H]; discriminate.
Qed.

(* The order in which the groups were found plays no part. *)
Theorem C68_joback_order : forall (cs cs' : counts) (Tb : option R) (n : nat), Permutation cs cs' ->
  jb_Tb tbl cs = jb_Tb tbl cs' /\ jb_Tm tbl cs = jb_Tm tbl cs' /\ jb_Tc tbl cs Tb = jb_Tc tbl cs' Tb /\
  jb_Pc tbl cs n = jb_Pc tbl cs' n /\ jb_Vc tbl cs = jb_Vc tbl cs' /\ jb_Hf tbl cs = jb_Hf tbl cs' /\
  jb_Gf tbl cs = jb_Gf tbl cs' /\ jb_Hfus tbl cs = jb_Hfus tbl cs' /\ jb_Hvap tbl cs = jb_Hvap tbl cs' /\
  jb_Cpig_coeffs tbl cs = jb_Cpig_coeffs tbl cs' /\ jb_mul_coeffs tbl cs = jb_mul_coeffs tbl cs'.
Proof.
  intros cs cs' Tb n P.
  unfold jb_Tc, jb_Tb, jb_Tm, jb_Pc, jb_Vc, jb_Hf, jb_Gf, jb_Hfus, jb_Hvap, jb_Cpig_coeffs, jb_mul_coeffs.
  rewrite !(fun f => jtot_perm f cs cs' P). repeat split.
Qed.

(* The critical temperature, from the boiling point given or else from the groups. *)
Theorem C68_joback_Tc : forall (cs : counts) (Tb : option R) (v : R),
  jb_Tc tbl cs Tb = Some v <->
  exists t b, adds_up (contrib tbl j_Tc) cs t /\
    (Tb = Some b \/ Tb = None /\ exists s, adds_up (contrib tbl j_Tb) cs s /\ b = 198.2 + s) /\
    0.584 + 0.965 * t - t * t <> 0 /\ v * (0.584 + 0.965 * t - t * t) = b.
Proof.
  intros cs Tb v. unfold jb_Tc. split.
  - destruct (jtot tbl j_Tc cs) as [t|] eqn:E; [|discriminate]. apply jtot_sum in E.
    destruct (match Tb with Some v0 => Some v0 | None => jb_Tb tbl cs end) as [b|] eqn:EB; [|discriminate].
    destruct (Reqb_spec (0.584 + 0.965 * t - t * t) 0) as [Z|Z]; [discriminate|].
    intros H; injection H as <-. exists t, b. splits.
    + exact E.
    + destruct Tb as [b0|]; [left; congruence | right; split; [reflexivity|]].
      apply C68_joback_linear in EB. exact EB.
    + exact Z.
    + field; exact Z.
  - intros (t & b & E & EB & Z & Hv). apply jtot_sum in E. rewrite E.
    assert (EB' : (match Tb with Some v0 => Some v0 | None => jb_Tb tbl cs end) = Some b).
    { destruct EB as [-> | [-> EB]]; [reflexivity|]. apply C68_joback_linear. exact EB. }
    rewrite EB'. rewrite Reqb_false by exact Z.
    f_equal. rewrite <- Hv. field; exact Z.
Qed.

(* With a positive boiling point the critical temperature is more than 1.22 times the boiling point, or it is
   negative: nothing lies between. *)
Theorem C68_joback_Tc_above_Tb : forall (cs : counts) (b v : R),
  0 < b -> jb_Tc tbl cs (Some b) = Some v -> 1.22 * b < v \/ v < 0.
Proof.
  intros cs b v Hb H. apply C68_joback_Tc in H. destruct H as (t & b' & _ & [E | [E _]] & Z & Hv); [|discriminate].
  injection E as <-. set (den := 0.584 + 0.965 * t - t * t) in *.
  assert (Hd : den < 0.8169).
  { unfold den. pose proof (Rle_0_sqr (t - 0.4825)) as Q. unfold Rsqr in Q. lra. }
  clearbody den. assert (v = b * / den) as -> by (rewrite <- Hv; field; exact Z).
  destruct (Rtotal_order den 0) as [Hn | [He | Hp]]; [|contradiction|].
  - right. pose proof (Rinv_lt_0_compat den Hn). nra.
  - left. assert (/ 0.8169 < / den) by (apply Rinv_lt_contravar; [nra | exact Hd]).
    assert (1.22 < / 0.8169) by lra. rewrite Rmult_comm. apply Rmult_lt_compat_l; lra.
Qed.

(* The critical pressure is always positive when there is one. *)
Theorem C68_joback_Pc : forall (cs : counts) (n : nat) (v : R),
  jb_Pc tbl cs n = Some v <->
  exists t, adds_up (contrib tbl j_Pc) cs t /\ 0 < v /\
    v * (0.113 + 0.0032 * INR n - t) * (0.113 + 0.0032 * INR n - t) = 100000.
Proof.
  intros cs n v. unfold jb_Pc. split.
  - destruct (jtot tbl j_Pc cs) as [t|] eqn:E; [|discriminate]. apply jtot_sum in E.
    set (x := 0.113 + 0.0032 * INR n - t). cbv zeta.
    destruct (Reqb_spec x 0) as [Z|Z]; [discriminate|]. intros H; injection H as <-.
    exists t. fold x. splits.
    + exact E.
    + apply Rmult_lt_0_compat; [|lra]. apply Rinv_0_lt_compat. destruct (Rtotal_order x 0) as [?|[?|?]]; nra.
    + field; exact Z.
  - intros (t & E & Hp & Hv). apply jtot_sum in E. rewrite E. cbv zeta.
    set (x := 0.113 + 0.0032 * INR n - t) in *.
    assert (Z : x <> 0) by (intros Z; rewrite Z in Hv; lra).
    rewrite Reqb_false by exact Z. f_equal.
    rewrite <- Hv. field; exact Z.
Qed.

(* One more group of a kind shifts each linear estimate by that group's contribution. *)
Theorem C68_joback_homologue : forall (cs : counts) (g n k : nat) (x v : R),
  contrib tbl j_Tb g = Some x -> jb_Tb tbl ((g, n) :: cs) = Some v ->
  jb_Tb tbl ((g, (n + k)%nat) :: cs) = Some (v + INR k * x).
Proof.
  intros cs g n k x v Hx H. apply C68_joback_linear in H. destruct H as (t & Ha & ->).
  inversion Ha as [|g' n' q x' t' Hc Hq]; subst. apply C68_joback_linear.
  exists (INR (n + k) * x + t'). split; [constructor; auto|]. rewrite plus_INR. rewrite Hx in Hc. injection Hc as <-. lra.
Qed.

(* What a fresh object would answer. *)
Definition Cpig_answer (cs : counts) (T : R) (r : option R) : Prop :=
  match r with
  | Some v => exists a b c d, adds_up (contrib tbl j_Cpa) cs a /\ adds_up (contrib tbl j_Cpb) cs b /\
                adds_up (contrib tbl j_Cpc) cs c /\ adds_up (contrib tbl j_Cpd) cs d /\
                v = (a - 37.93) + (b + 0.210) * T + (c - 3.91 / 10000) * T ^ 2 + (d + 2.06 / 10000000) * T ^ 3
  | None => exists f g n, In f [j_Cpa; j_Cpb; j_Cpc; j_Cpd] /\ In (g, n) cs /\ contrib tbl f g = None
  end.
Definition mul_answer (cs : counts) (MW T : R) (r : option R) : Prop :=
  match r with
  | Some v => T <> 0 /\ exists a b, adds_up (contrib tbl j_mua) cs a /\ adds_up (contrib tbl j_mub) cs b /\
                v = MW * exp ((a - 597.82) / T + (b - 11.202))
  | None => T = 0 \/ exists f g n, In f [j_mua; j_mub] /\ In (g, n) cs /\ contrib tbl f g = None
  end.

Definition jinv (o : joback) : Prop :=
  (jo_Cp o = None \/ jo_Cp o = jb_Cpig_coeffs tbl (jo_counts o)) /\
  (jo_mu o = None \/ jo_mu o = jb_mul_coeffs tbl (jo_counts o)).

Lemma Cp_kept : forall o, jinv o ->
  match jo_Cp o with Some c => Some c | None => jb_Cpig_coeffs tbl (jo_counts o) end = jb_Cpig_coeffs tbl (jo_counts o).
Proof. intros o [[H | H] _]; rewrite H; [reflexivity|]. destruct (jb_Cpig_coeffs tbl (jo_counts o)); auto. Qed.
Lemma mu_kept : forall o, jinv o ->
  match jo_mu o with Some c => Some c | None => jb_mul_coeffs tbl (jo_counts o) end = jb_mul_coeffs tbl (jo_counts o).
Proof. intros o [_ [H | H]]; rewrite H; [reflexivity|]. destruct (jb_mul_coeffs tbl (jo_counts o)); auto. Qed.

Lemma Cpig_state : forall o T, jinv o ->
  snd (jb_Cpig tbl o T) = JB (jo_counts o) (jo_atoms o) (jo_MW o) (jo_Tb o) (jb_Cpig_coeffs tbl (jo_counts o)) (jo_mu o).
Proof.
  intros o T I. unfold jb_Cpig. rewrite (Cp_kept o I).
  destruct (jb_Cpig_coeffs tbl (jo_counts o)) as [[[[a b] c] d]|]; reflexivity.
Qed.
Lemma mul_state : forall o T, jinv o ->
  snd (jb_mul tbl o T) = JB (jo_counts o) (jo_atoms o) (jo_MW o) (jo_Tb o) (jo_Cp o) (jb_mul_coeffs tbl (jo_counts o)).
Proof.
  intros o T I. unfold jb_mul. rewrite (mu_kept o I).
  destruct (jb_mul_coeffs tbl (jo_counts o)) as [[a b]|]; reflexivity.
Qed.
Lemma inv_Cpig : forall o T, jinv o -> jinv (snd (jb_Cpig tbl o T)).
Proof. intros o T I. rewrite Cpig_state by exact I. destruct I as [I1 I2]. split; cbn; auto. Qed.
Lemma inv_mul : forall o T, jinv o -> jinv (snd (jb_mul tbl o T)).
Proof. intros o T I. rewrite mul_state by exact I. destruct I as [I1 I2]. split; cbn; auto. Qed.

Lemma step_inv : forall q o, jinv o -> jinv (jb_step tbl o q) /\ jo_counts (jb_step tbl o q) = jo_counts o /\
  jo_atoms (jb_step tbl o q) = jo_atoms o /\ jo_MW (jb_step tbl o q) = jo_MW o /\ jo_Tb (jb_step tbl o q) = jo_Tb o.
Proof.
  intros [T|T|] o I; cbn [jb_step].
  - split; [apply inv_Cpig; auto|]. rewrite Cpig_state by exact I. auto.
  - split; [apply inv_mul; auto|]. rewrite mul_state by exact I. auto.
  - unfold jb_estimate. destruct (jo_counts o) as [|p l] eqn:E; [cbn [snd]; rewrite ?E; auto|].
    cbn [snd]. pose proof (inv_mul o 300 I) as I1. pose proof (inv_Cpig _ 300 I1) as I2.
    split; [exact I2|]. rewrite Cpig_state by exact I1. rewrite mul_state by exact I. cbn. auto.
Qed.

Lemma steps_inv : forall qs o, jinv o -> let o' := fold_left (jb_step tbl) qs o in
  jinv o' /\ jo_counts o' = jo_counts o /\ jo_atoms o' = jo_atoms o /\ jo_MW o' = jo_MW o /\ jo_Tb o' = jo_Tb o.
Proof.
  induction qs as [|q qs IH]; intros o I; cbn [fold_left]; [auto 6|].
  destruct (step_inv q o I) as (I1 & H1 & H2 & H3 & H4).
  destruct (IH _ I1) as (I2 & G1 & G2 & G3 & G4). cbv zeta.
  rewrite G1, G2, G3, G4. auto.
Qed.

Lemma Cpig_ok : forall o T, jinv o -> Cpig_answer (jo_counts o) T (fst (jb_Cpig tbl o T)).
Proof.
  intros o T I. unfold jb_Cpig. rewrite (Cp_kept o I).
  destruct (jb_Cpig_coeffs tbl (jo_counts o)) as [[[[a b] c] d]|] eqn:E; cbn [fst Cpig_answer].
  - unfold jb_Cpig_coeffs in E.
    destruct (jtot tbl j_Cpa (jo_counts o)) as [a'|] eqn:Ea; [|discriminate].
    destruct (jtot tbl j_Cpb (jo_counts o)) as [b'|] eqn:Eb; [|discriminate].
    destruct (jtot tbl j_Cpc (jo_counts o)) as [c'|] eqn:Ec; [|discriminate].
    destruct (jtot tbl j_Cpd (jo_counts o)) as [d'|] eqn:Ed; [|discriminate].
    injection E as <- <- <- <-. exists a', b', c', d'.
    apply jtot_sum in Ea; apply jtot_sum in Eb; apply jtot_sum in Ec; apply jtot_sum in Ed.
    splits; auto. unfold horner. cbn [rev app fold_left]. ring.
  - apply C68_joback_missing in E. destruct E as [E | [E | [E | E]]]; destruct E as (g & n & Hi & Hg);
      [exists j_Cpa | exists j_Cpb | exists j_Cpc | exists j_Cpd]; exists g, n; cbn [In]; auto 8.
Qed.
Lemma mul_ok : forall o T, jinv o -> mul_answer (jo_counts o) (jo_MW o) T (fst (jb_mul tbl o T)).
Proof.
  intros o T I. unfold jb_mul. rewrite (mu_kept o I).
  destruct (jb_mul_coeffs tbl (jo_counts o)) as [[a b]|] eqn:E; cbn [fst].
  - unfold jb_mul_coeffs in E.
    destruct (jtot tbl j_mua (jo_counts o)) as [a'|] eqn:Ea; [|discriminate].
    destruct (jtot tbl j_mub (jo_counts o)) as [b'|] eqn:Eb; [|discriminate].
    injection E as <- <-. destruct (Reqb_spec T 0) as [Z|Z]; cbn [mul_answer].
    + left. exact Z.
    + split; [exact Z|]. exists a', b'. apply jtot_sum in Ea; apply jtot_sum in Eb. auto.
  - cbn [mul_answer]. right. apply C68_joback_missing in E. destruct E as [E | E]; destruct E as (g & n & Hi & Hg);
      [exists j_mua | exists j_mub]; exists g, n; cbn [In]; auto 8.
Qed.

(* Whatever was asked of the object before, its heat capacity is the cubic polynomial with the group sums as
   coefficients, its viscosity the exponential with the group sums, and its report holds the estimates of the groups. *)
Theorem C68_joback_object : forall (cs : counts) (withH : nat) (mw : R) (ac : option nat) (MW Tb : option R)
  (o : joback) (asked : list jask),
  jb_new tbl cs withH mw ac MW Tb = Some o ->
  let o' := fold_left (jb_step tbl) asked o in
  let weight := match MW with Some m => m | None => mw end in
  let atoms := match ac with Some n => n | None => withH end in
  (forall T, Cpig_answer cs T (fst (jb_Cpig tbl o' T))) /\
  (forall T, mul_answer cs weight T (fst (jb_mul tbl o' T))) /\
  (forall e, fst (jb_estimate tbl o') = Some e ->
     cs <> [] /\ je_Tb e = jb_Tb tbl cs /\ je_Tm e = jb_Tm tbl cs /\ je_Tc e = jb_Tc tbl cs Tb /\
     je_Pc e = jb_Pc tbl cs atoms /\ je_Vc e = jb_Vc tbl cs /\ je_Hf e = jb_Hf tbl cs /\ je_Gf e = jb_Gf tbl cs /\
     je_Hfus e = jb_Hfus tbl cs /\ je_Hvap e = jb_Hvap tbl cs /\
     je_Cpig e = jb_Cpig_coeffs tbl cs /\ je_mul e = jb_mul_coeffs tbl cs) /\
  (fst (jb_estimate tbl o') = None <-> cs = []).
Proof.
  intros cs withH mw ac MW Tb o asked Hn o' weight atoms.
  assert (I0 : jinv o /\ jo_counts o = cs /\ jo_atoms o = atoms /\ jo_MW o = weight /\
               jo_Tb o = match Tb with Some b => Some b | None => jb_Tb tbl cs end).
  { unfold jb_new in Hn. unfold weight, atoms.
    destruct MW as [m|]; destruct ac as [n|]; try discriminate Hn; injection Hn as <-; cbn; unfold jinv; cbn; auto 8. }
  destruct I0 as (I0 & C0 & A0 & M0 & T0).
  destruct (steps_inv asked o I0) as (I & C & A & M & B). fold o' in I, C, A, M, B.
  rewrite C0 in C. rewrite A0 in A. rewrite M0 in M. rewrite T0 in B.
  assert (TcE : jb_Tc tbl cs (match Tb with Some b => Some b | None => jb_Tb tbl cs end) = jb_Tc tbl cs Tb).
  { unfold jb_Tc. destruct Tb as [b|]; [reflexivity|]. destruct (jb_Tb tbl cs); reflexivity. }
  splits.
  - intros T. pose proof (Cpig_ok o' T I) as H. rewrite C in H. exact H.
  - intros T. pose proof (mul_ok o' T I) as H. rewrite C, M in H. exact H.
  - intros e. unfold jb_estimate. destruct (jo_counts o') as [|p l] eqn:E; [discriminate|].
    intros H. cbn [fst] in H. injection H as <-.
    pose proof (inv_mul o' 300 I) as I1.
    rewrite (Cpig_state _ 300 I1). rewrite (mul_state o' 300 I).
    cbn [jo_counts jo_atoms jo_MW jo_Tb jo_Cp jo_mu je_Tb je_Tm je_Tc je_Pc je_Vc je_Hf je_Gf je_Hfus je_Hvap je_Cpig je_mul].
    rewrite E, C, A, B, TcE. splits; auto. rewrite <- C. discriminate.
  - unfold jb_estimate. rewrite C. destruct cs; cbn [fst]; split; congruence.
Qed.

(* Construction fails exactly when the number of atoms is given without the molecular weight. *)
Theorem C68_joback_construct : forall (cs : counts) (withH : nat) (mw : R) (ac : option nat) (MW Tb : option R),
  jb_new tbl cs withH mw ac MW Tb = None <-> ac <> None /\ MW = None.
Proof. intros cs withH mw [n|] [m|] Tb; cbn; split; try discriminate; try tauto; try (intros [H1 H2]; congruence).
  intros _; split; [discriminate | auto]. Qed.
End J.

(* The table of the package: all 41 groups have a contribution to Tb, Hvap and Hf; only =NH (36) has none to Pc. *)
Theorem C68_joback_table : forall (cs : counts), (forall g n, In (g, n) cs -> (1 <= g <= 41)%nat) ->
  (exists v, jb_Tb JOBACK_GROUPS cs = Some v) /\ (exists v, jb_Hvap JOBACK_GROUPS cs = Some v) /\
  (exists v, jb_Hf JOBACK_GROUPS cs = Some v) /\
  ((exists n, In (36%nat, n) cs) <-> forall atoms, jb_Pc JOBACK_GROUPS cs atoms = None).
Proof.
  intros cs H.
  assert (K : forall g, (1 <= g <= 41)%nat ->
    contrib JOBACK_GROUPS j_Tb g <> None /\ contrib JOBACK_GROUPS j_Hvap g <> None /\
    contrib JOBACK_GROUPS j_Hform g <> None /\ (contrib JOBACK_GROUPS j_Pc g = None <-> g = 36%nat)).
  { intros g Hg. do 42 (destruct g as [|g]; [try lia; unfold contrib; cbn; splits; try discriminate;
      split; intros E; try discriminate E; reflexivity|]). lia. }
  splits.
  - destruct (jb_Tb JOBACK_GROUPS cs) eqn:E; [eauto|]. apply C68_joback_missing in E. destruct E as (g & n & Hi & Hg).
    destruct (K g (H g n Hi)) as (K1 & _). contradiction.
  - destruct (jb_Hvap JOBACK_GROUPS cs) eqn:E; [eauto|]. apply C68_joback_missing in E. destruct E as (g & n & Hi & Hg).
    destruct (K g (H g n Hi)) as (_ & K1 & _). contradiction.
  - destruct (jb_Hf JOBACK_GROUPS cs) eqn:E; [eauto|]. apply C68_joback_missing in E. destruct E as (g & n & Hi & Hg).
    destruct (K g (H g n Hi)) as (_ & _ & K1 & _). contradiction.
  - split.
    + intros (n & Hi). assert (E : jtot JOBACK_GROUPS j_Pc cs = None).
      { apply jtot_None. exists 36%nat, n. split; auto. }
      intros atoms. unfold jb_Pc. rewrite E. reflexivity.
    + intros E0. assert (E : jtot JOBACK_GROUPS j_Pc cs = None).
      { destruct (jtot JOBACK_GROUPS j_Pc cs) as [t|] eqn:E; [|reflexivity]. exfalso.
        pose proof (E0 0%nat) as Q0. pose proof (E0 1%nat) as Q1. unfold jb_Pc in Q0, Q1. rewrite E in Q0, Q1. cbv zeta in Q0, Q1.
        destruct (Reqb_spec (0.113 + 0.0032 * INR 0 - t) 0) as [Z0|]; [|discriminate].
        destruct (Reqb_spec (0.113 + 0.0032 * INR 1 - t) 0) as [Z1|]; [|discriminate]. cbn [INR] in Z0, Z1. lra. }
      apply jtot_None in E. destruct E as (g & n & Hi & Hg).
      apply (K g (H g n Hi)) in Hg. subst. exists n. exact Hi.
Qed.

(* A straight chain of 75 carbons: two CH3 and 73 CH2. *)
Definition alkane75 : counts := [(1%nat, 2%nat); (2%nat, 73%nat)].

(* Finding: nothing stops the estimate of Tc once the polynomial in its denominator is negative: the straight
   chain of 75 carbons boils above 1900 K and has a critical temperature below zero. *)
Theorem C68_joback_Tc_positive_refuted : exists b v,
  jb_Tb JOBACK_GROUPS alkane75 = Some b /\ 1900 < b /\ jb_Tc JOBACK_GROUPS alkane75 None = Some v /\ v < 0.
Proof.
  set (t := INR 2 * (141 / 10000) + (INR 73 * (189 / 10000) + 0)).
  set (s := INR 2 * (1179 / 50) + (INR 73 * (572 / 25) + 0)).
  assert (Ht : adds_up (contrib JOBACK_GROUPS j_Tc) alkane75 t) by (unfold t, alkane75; repeat (constructor; [reflexivity|]); constructor).
  assert (Hs : adds_up (contrib JOBACK_GROUPS j_Tb) alkane75 s) by (unfold s, alkane75; repeat (constructor; [reflexivity|]); constructor).
  assert (Et : t = 1.4079) by (unfold t; rewrite !INR_IZR_INZ; cbn [Z.of_nat Pos.of_succ_nat Pos.succ]; lra).
  assert (Es : s = 1717.40) by (unfold s; rewrite !INR_IZR_INZ; cbn [Z.of_nat Pos.of_succ_nat Pos.succ]; lra).
  clearbody t s. subst t s.
  exists 1915.6, (1915.6 / (0.584 + 0.965 * 1.4079 - 1.4079 * 1.4079)). splits.
  - apply C68_joback_linear. eexists. split; [exact Hs|]. lra.
  - lra.
  - apply C68_joback_Tc. exists 1.4079, 1915.6. splits.
    + exact Ht.
    + right. split; [reflexivity|]. exists 1717.40. split; [exact Hs | lra].
    + lra.
    + field. lra.
  - assert (D : 0.584 + 0.965 * 1.4079 - 1.4079 * 1.4079 < 0) by lra.
    apply Rinv_lt_0_compat in D. unfold Rdiv. nra.
Qed.

(* Finding: a boiling point given by the caller is used for Tc, but the report gives that of the groups as Tb. *)
Theorem C68_joback_report_Tb_refuted : exists o e,
  jb_new JOBACK_GROUPS [(1%nat, 2%nat)] 8 30 None None (Some 184.6) = Some o /\
  fst (jb_estimate JOBACK_GROUPS o) = Some e /\ je_Tb e <> Some 184.6 /\
  je_Tc e = jb_Tc JOBACK_GROUPS [(1%nat, 2%nat)] (Some 184.6).
Proof.
  eexists. eexists. splits; try reflexivity.
  intros H. apply C68_joback_linear in H. destruct H as (t & Ht & E).
  inversion Ht as [|g n q x t' Hc Hq]; subst. inversion Hq; subst. cbn in Hc. injection Hc as <-. cbn [INR] in E. lra.
Qed.

(* Finding: the number of atoms alone cannot be given. *)
Theorem C68_joback_atom_count_refuted : jb_new JOBACK_GROUPS alkane75 227 1053 (Some 227%nat) None None = None.
Proof. reflexivity. Qed.

(* ------------------------------------------------------------------ DikyJoback *)
Section D.
Variable dtbl : nat -> option (R * R * R * R).

Lemma dk_from : forall d T a0 a1 a2 a3,
  match fold_left (dk_step dtbl) d (Some (a0, a1, a2, a3)) with
  | Some (b0, b1, b2, b3) => exists s, adds_up (poly_of dtbl T) d s /\
      b0 + b1 * T + b2 * T * T + b3 * T * T * T = a0 + a1 * T + a2 * T * T + a3 * T * T * T + s
  | None => exists g n, In (g, n) d /\ dtbl g = None
  end.
Proof.
  induction d as [|[g n] d IH]; intros T a0 a1 a2 a3; cbn [fold_left].
  - exists 0. split; [constructor | lra].
  - unfold dk_step at 2. cbn [fst snd]. destruct (dtbl g) as [[[[g0 g1] g2] g3]|] eqn:E.
    + specialize (IH T (a0 + INR n * g0) (a1 + INR n * g1) (a2 + INR n * g2) (a3 + INR n * g3)).
      cbv zeta in IH |- *.
      destruct (fold_left (dk_step dtbl) d (Some (a0 + INR n * g0, a1 + INR n * g1, a2 + INR n * g2, a3 + INR n * g3))) as [[[[b0 b1] b2] b3]|].
      * destruct IH as (s & Hs & Eq). exists (INR n * (g0 + g1 * T + g2 * T ^ 2 + g3 * T ^ 3) + s). split.
        -- constructor; auto. unfold poly_of. rewrite E. reflexivity.
        -- rewrite Eq. ring.
      * destruct IH as (g' & n' & Hi & Hg). exists g', n'. split; auto. right; exact Hi.
    + assert (N : forall l, fold_left (dk_step dtbl) l None = None) by (induction l; cbn [fold_left]; auto).
      rewrite N. exists g, n. split; auto. left; reflexivity.
Qed.

Lemma adds_dset : forall c d k x t, adds_up c d t -> c k = Some x -> adds_up c (dset d k (dget0 d k + 1)) (t + x).
Proof.
  intros c d k x t H Hk. induction H as [|g n d y t Hg H IH]; cbn [dset dget0].
  - replace (0 + x) with (INR 1 * x + 0) by (cbn [INR]; lra). constructor; [exact Hk | constructor].
  - destruct (g =? k)%nat eqn:E.
    + apply Nat.eqb_eq in E. subst g. assert (y = x) by congruence. subst y.
      replace (INR n * x + t + x) with (INR (n + 1) * x + t) by (rewrite plus_INR; cbn [INR]; lra).
      constructor; auto.
    + replace (INR n * y + t + x) with (INR n * y + (t + x)) by lra. constructor; auto.
Qed.

Lemma dset_fresh : forall (d : counts) k v, ~ In k (map fst d) -> dset d k v = d ++ [(k, v)] /\ dget0 d k = 0%nat.
Proof.
  induction d as [|[g n] d IH]; intros k v H; cbn [dset dget0 app]; [auto|].
  cbn [map fst In] in H. destruct (g =? k)%nat eqn:E; [apply Nat.eqb_eq in E; tauto|].
  destruct (IH k v) as [-> ->]; tauto.
Qed.

Lemma adds_rings : forall T rings d t x3 x4,
  poly_of dtbl T 43 = Some x3 -> poly_of dtbl T 44 = Some x4 ->
  adds_up (poly_of dtbl T) d t ->
  adds_up (poly_of dtbl T) (fold_left dk_ring rings d) (t + INR (how_many 3 rings) * x3 + INR (how_many 4 rings) * x4).
Proof.
  intros T rings. induction rings as [|r rings IH]; intros d t x3 x4 H3 H4 H; cbn [fold_left].
  - cbn. replace (t + 0 * x3 + 0 * x4) with t by lra. exact H.
  - assert (Step : exists t', adds_up (poly_of dtbl T) (dk_ring d r) t' /\
      t' = t + (if Nat.eq_dec r 3 then x3 else 0) + (if Nat.eq_dec r 4 then x4 else 0)).
    { unfold dk_ring. destruct (Nat.eqb_spec r 3) as [-> | N3].
      - exists (t + x3). split; [apply adds_dset; auto|]. cbn. lra.
      - destruct (Nat.eqb_spec r 4) as [-> | N4].
        + exists (t + x4). split; [apply adds_dset; auto|]. cbn. lra.
        + exists t. split; [exact H|]. destruct (Nat.eq_dec r 3); [contradiction|]. destruct (Nat.eq_dec r 4); [contradiction|]. lra. }
    destruct Step as (t' & Ht' & Et'). pose proof (IH _ t' x3 x4 H3 H4 Ht') as G.
    match type of G with adds_up _ _ ?a => match goal with |- adds_up _ _ ?b => replace b with a; [exact G|] end end.
    subst t'. unfold how_many. cbn [count_occ].
    destruct (Nat.eq_dec r 3); destruct (Nat.eq_dec r 4); try (exfalso; lia); try rewrite S_INR; lra.
Qed.

(* The heat capacity of the Diky variant: the polynomials of the groups found, plus that of the constant term (42)
   once, plus that of a three-membered ring (43) and of a four-membered ring (44) for each such ring. *)
Theorem C68_diky : forall (cs : counts) (rings : list nat) (T t c x3 x4 : R),
  ~ In 42%nat (map fst cs) ->
  poly_of dtbl T 42 = Some c -> poly_of dtbl T 43 = Some x3 -> poly_of dtbl T 44 = Some x4 ->
  adds_up (poly_of dtbl T) cs t ->
  dk_Cpig dtbl true cs rings T =
  DkVal (t + c + INR (how_many 3 rings) * x3 + INR (how_many 4 rings) * x4).
Proof.
  intros cs rings T t c x3 x4 N H42 H43 H44 Ha.
  assert (A : adds_up (poly_of dtbl T) (dset cs 42 1) (t + c)).
  { pose proof (adds_dset (poly_of dtbl T) cs 42 c t Ha H42) as H.
    destruct (dset_fresh cs 42 1 N) as [_ Z]. rewrite Z in H. exact H. }
  pose proof (adds_rings T rings _ _ x3 x4 H43 H44 A) as B. fold (dk_counts cs rings) in B.
  unfold dk_Cpig, dk_coefficients. pose proof (dk_from (dk_counts cs rings) T 0 0 0 0) as F.
  destruct (fold_left (dk_step dtbl) (dk_counts cs rings) (Some (0, 0, 0, 0))) as [[[[b0 b1] b2] b3]|].
  - destruct F as (s & Hs & Eq). f_equal. rewrite Eq.
    assert (U : forall c0 d0 u v, adds_up c0 d0 u -> adds_up c0 d0 v -> u = v).
    { clear. intros c0 d0 u v H. revert v. induction H; intros v H'; inversion H'; subst; auto.
      f_equal; [congruence | auto]. }
    rewrite (U _ _ _ _ Hs B). lra.
  - exfalso. destruct F as (g & n & Hi & Hg). clear - B Hi Hg.
    induction B; [destruct Hi|]. destruct Hi as [Hi | Hi]; [|auto].
    injection Hi as -> ->. unfold poly_of in H. rewrite Hg in H. discriminate.
Qed.

(* Without a complete assignment there is no answer; a group outside the table is an exception. *)
Theorem C68_diky_none : forall (cs : counts) (rings : list nat) (T : R),
  dk_Cpig dtbl false cs rings T = DkNone /\
  ((exists g n, In (g, n) cs /\ g <> 42%nat /\ g <> 43%nat /\ g <> 44%nat /\ dtbl g = None) ->
   dk_Cpig dtbl true cs rings T = DkErr).
Proof.
  intros cs rings T. split; [reflexivity|]. intros (g & n & Hi & N2 & N3 & N4 & Hg).
  assert (K : forall d k v, k <> g -> In (g, n) d -> In (g, n) (dset d k v)).
  { clear. induction d as [|[g' n'] d IH]; intros k v Hk Hi; cbn [dset]; [destruct Hi|].
    destruct (g' =? k)%nat eqn:E.
    - destruct Hi as [Hi|Hi]; [|right; exact Hi]. injection Hi as -> ->. apply Nat.eqb_eq in E. congruence.
    - destruct Hi as [Hi|Hi]; [left; exact Hi | right; auto]. }
  assert (Hd : In (g, n) (dk_counts cs rings)).
  { unfold dk_counts. assert (Q : In (g, n) (dset cs 42 1)) by (apply K; auto). revert Q. generalize (dset cs 42 1).
    induction rings as [|r rings IH]; intros d Q; cbn [fold_left]; auto. apply IH. unfold dk_ring.
    destruct (r =? 3)%nat; [apply K; auto|]. destruct (r =? 4)%nat; [apply K; auto | exact Q]. }
  unfold dk_Cpig, dk_coefficients. pose proof (dk_from (dk_counts cs rings) T 0 0 0 0) as F.
  destruct (fold_left (dk_step dtbl) (dk_counts cs rings) (Some (0, 0, 0, 0))) as [[[[b0 b1] b2] b3]|]; [|reflexivity].
  exfalso. destruct F as (s & Hs & _). clear - Hs Hd Hg. induction Hs; [destruct Hd|]. destruct Hd as [Hd|Hd]; [|auto].
  injection Hd as -> ->. unfold poly_of in H. rewrite Hg in H. discriminate.
Qed.
End D.

(* ------------------------------------------------------------------ Fedors *)
Lemma of_formula_count : forall l e, NoDup (map fst l) ->
  (match of_formula l e with Some z => z | None => 0%Z end) = Z.of_nat (atoms_of e l).
Proof.
  induction l as [|[k n] l IH]; intros e N; cbn [of_formula atoms_of]; [reflexivity|].
  cbn [map fst] in N. inversion N as [|a b Hn Hd]; subst.
  destruct (string_dec k e) as [-> | D].
  - rewrite String.eqb_refl. assert (Z : atoms_of e l = 0%nat).
    { clear - Hn. induction l as [|[k' n'] l IH]; cbn [atoms_of]; [reflexivity|]. cbn [map fst In] in Hn.
      destruct (string_dec k' e) as [E|E]; [tauto|]. rewrite IH by tauto. reflexivity. }
    rewrite Z, Nat.add_0_r. reflexivity.
  - destruct (String.eqb_spec e k) as [E|E]; [congruence|]. rewrite IH by exact Hd. reflexivity.
Qed.

Lemma filter_count : forall n l, List.length (filter (Nat.eqb n) l) = how_many n l.
Proof.
  intros n. unfold how_many. induction l as [|a l IH]; cbn [filter count_occ]; [reflexivity|].
  destruct (Nat.eq_dec a n) as [-> | D].
  - rewrite Nat.eqb_refl. cbn [List.length]. rewrite IH. reflexivity.
  - destruct (Nat.eqb_spec n a); [congruence | exact IH].
Qed.
Lemma filter_double : forall l, List.length (filter is_double l) = bonds_of BDouble l.
Proof. unfold bonds_of. induction l as [|[] l IH]; cbn; rewrite ?IH; reflexivity. Qed.
Lemma filter_triple : forall l, List.length (filter is_triple l) = bonds_of BTriple l.
Proof. unfold bonds_of. induction l as [|[] l IH]; cbn; rewrite ?IH; reflexivity. Qed.

(* The critical volume of Fedors: the constant and the contribution of every atom, ring, multiple bond and
   bond between rings; an alcohol oxygen and an amine nitrogen are counted with their own contribution instead. *)
Theorem C68_fedors_volume : forall (m : fmol) Vc ok ua ub ur, NoDup (map fst (fm_formula m)) ->
  Fedors m = (Vc, ok, ua, ub, ur) ->
  let at_ e := INR (atoms_of e (fm_formula m)) in
  let rg n := INR (how_many n (fm_rings m)) in
  Vc * 1000000 = 26.6
    + 34.426 * at_ "C"%string + 9.172 * at_ "H"%string
    + 20.291 * (at_ "O"%string - INR (fm_alcohol m)) + 18 * INR (fm_alcohol m)
    + 48.855 * (at_ "N"%string - INR (fm_amine m)) + 47.422 * INR (fm_amine m)
    + 22.242 * at_ "F"%string + 52.801 * at_ "Cl"%string + 71.774 * at_ "Br"%string + 96.402 * at_ "I"%string
    + 50.866 * at_ "S"%string
    - 15.824 * rg 3%nat - 17.247 * rg 4%nat - 39.126 * rg 5%nat - 39.508 * rg 6%nat
    + 5.028 * INR (bonds_of BDouble (fm_bonds m)) + 0.7973 * INR (bonds_of BTriple (fm_bonds m))
    + 35.524 * INR (fm_ring_ring m).
Proof.
  intros m Vc ok ua ub ur N H at_ rg. unfold Fedors in H. cbv zeta in H.
  remember (fold_left (fedors_step (fedors_atoms m)) fedors_contributions 26.6) as vc eqn:Evc.
  injection H as H _ _ _ _. subst Vc. subst vc.
  assert (S : forall a vc kv, fedors_step a vc kv = vc + IZR (match a (fst kv) with Some z => z | None => 0%Z end) * snd kv).
  { intros a vc kv. unfold fedors_step. destruct (a (fst kv)); [reflexivity | cbn; lra]. }
  set (cnt := fun e => match of_formula (fm_formula m) e with Some z => z | None => 0%Z end).
  assert (Cn : forall e, IZR (cnt e) = at_ e).
  { intros e. unfold cnt, at_. rewrite of_formula_count by exact N. symmetry. apply INR_IZR_INZ. }
  assert (same : forall d k z, aset d k z k = Some z) by (intros; unfold aset; rewrite String.eqb_refl; reflexivity).
  assert (other : forall d k z k', String.eqb k' k = false -> aset d k z k' = d k') by (intros d k z k' E; unfold aset; rewrite E; reflexivity).
  set (val := fun (d : adict) k => match d k with Some z => z | None => 0%Z end).
  assert (vsame : forall d k z, val (aset d k z) k = z) by (intros; unfold val; rewrite same; reflexivity).
  assert (vother : forall d k z k', String.eqb k' k = false -> val (aset d k z) k' = val d k')
    by (intros d k z k' E; unfold val; rewrite other by exact E; reflexivity).
  set (f := of_formula (fm_formula m)) in *.
  set (a1 := match f "N"%string with None => aset f "N" 0 | Some _ => f end).
  set (a2 := match a1 "O"%string with None => aset a1 "O" 0 | Some _ => a1 end).
  assert (V2 : forall k, val a2 k = cnt k).
  { assert (V1 : forall k, val a1 k = cnt k).
    { intros k. unfold a1. destruct (f "N"%string) eqn:EN; [reflexivity|].
      destruct (String.eqb k "N") eqn:Ek; [|apply vother; exact Ek].
      apply String.eqb_eq in Ek. subst k. rewrite vsame. unfold cnt. rewrite EN. reflexivity. }
    intros k. unfold a2. destruct (a1 "O"%string) eqn:EO; [apply V1|].
    destruct (String.eqb k "O") eqn:Ek; [|rewrite vother by exact Ek; apply V1].
    apply String.eqb_eq in Ek. subst k. rewrite vsame. rewrite <- V1. unfold val. rewrite EO. reflexivity. }
  assert (VV : forall d k, match d k with Some z => z | None => 0%Z end = val d k) by reflexivity.
  set (a := fedors_atoms m).
  assert (K0 : val a "C"%string = cnt "C"%string) by (unfold a, fedors_atoms; cbv zeta; fold f; fold a1; fold a2; rewrite ?VV;
    repeat first [rewrite vsame | rewrite vother by reflexivity]; rewrite ?V2; reflexivity).
  assert (K1 : val a "H"%string = cnt "H"%string) by (unfold a, fedors_atoms; cbv zeta; fold f; fold a1; fold a2; rewrite ?VV;
    repeat first [rewrite vsame | rewrite vother by reflexivity]; rewrite ?V2; reflexivity).
  assert (K2 : val a "O"%string = (cnt "O"%string - Z.of_nat (fm_alcohol m))%Z) by (unfold a, fedors_atoms; cbv zeta; fold f; fold a1; fold a2; rewrite ?VV;
    repeat first [rewrite vsame | rewrite vother by reflexivity]; rewrite ?V2; reflexivity).
  assert (K3 : val a "O_alcohol"%string = Z.of_nat (fm_alcohol m)) by (unfold a, fedors_atoms; cbv zeta; fold f; fold a1; fold a2; rewrite ?VV;
    repeat first [rewrite vsame | rewrite vother by reflexivity]; rewrite ?V2; reflexivity).
  assert (K4 : val a "N"%string = (cnt "N"%string - Z.of_nat (fm_amine m))%Z) by (unfold a, fedors_atoms; cbv zeta; fold f; fold a1; fold a2; rewrite ?VV;
    repeat first [rewrite vsame | rewrite vother by reflexivity]; rewrite ?V2; reflexivity).
  assert (K5 : val a "N_amine"%string = Z.of_nat (fm_amine m)) by (unfold a, fedors_atoms; cbv zeta; fold f; fold a1; fold a2; rewrite ?VV;
    repeat first [rewrite vsame | rewrite vother by reflexivity]; rewrite ?V2; reflexivity).
  assert (K6 : val a "F"%string = cnt "F"%string) by (unfold a, fedors_atoms; cbv zeta; fold f; fold a1; fold a2; rewrite ?VV;
    repeat first [rewrite vsame | rewrite vother by reflexivity]; rewrite ?V2; reflexivity).
  assert (K7 : val a "Cl"%string = cnt "Cl"%string) by (unfold a, fedors_atoms; cbv zeta; fold f; fold a1; fold a2; rewrite ?VV;
    repeat first [rewrite vsame | rewrite vother by reflexivity]; rewrite ?V2; reflexivity).
  assert (K8 : val a "Br"%string = cnt "Br"%string) by (unfold a, fedors_atoms; cbv zeta; fold f; fold a1; fold a2; rewrite ?VV;
    repeat first [rewrite vsame | rewrite vother by reflexivity]; rewrite ?V2; reflexivity).
  assert (K9 : val a "I"%string = cnt "I"%string) by (unfold a, fedors_atoms; cbv zeta; fold f; fold a1; fold a2; rewrite ?VV;
    repeat first [rewrite vsame | rewrite vother by reflexivity]; rewrite ?V2; reflexivity).
  assert (K10 : val a "S"%string = cnt "S"%string) by (unfold a, fedors_atoms; cbv zeta; fold f; fold a1; fold a2; rewrite ?VV;
    repeat first [rewrite vsame | rewrite vother by reflexivity]; rewrite ?V2; reflexivity).
  assert (K11 : val a "3_ring"%string = zcount (Nat.eqb 3) (fm_rings m)) by (unfold a, fedors_atoms; cbv zeta; fold f; fold a1; fold a2; rewrite ?VV;
    repeat first [rewrite vsame | rewrite vother by reflexivity]; rewrite ?V2; reflexivity).
  assert (K12 : val a "4_ring"%string = zcount (Nat.eqb 4) (fm_rings m)) by (unfold a, fedors_atoms; cbv zeta; fold f; fold a1; fold a2; rewrite ?VV;
    repeat first [rewrite vsame | rewrite vother by reflexivity]; rewrite ?V2; reflexivity).
  assert (K13 : val a "5_ring"%string = zcount (Nat.eqb 5) (fm_rings m)) by (unfold a, fedors_atoms; cbv zeta; fold f; fold a1; fold a2; rewrite ?VV;
    repeat first [rewrite vsame | rewrite vother by reflexivity]; rewrite ?V2; reflexivity).
  assert (K14 : val a "6_ring"%string = zcount (Nat.eqb 6) (fm_rings m)) by (unfold a, fedors_atoms; cbv zeta; fold f; fold a1; fold a2; rewrite ?VV;
    repeat first [rewrite vsame | rewrite vother by reflexivity]; rewrite ?V2; reflexivity).
  assert (K15 : val a "double_bond"%string = bcount is_double (fm_bonds m)) by (unfold a, fedors_atoms; cbv zeta; fold f; fold a1; fold a2; rewrite ?VV;
    repeat first [rewrite vsame | rewrite vother by reflexivity]; rewrite ?V2; reflexivity).
  assert (K16 : val a "triple_bond"%string = bcount is_triple (fm_bonds m)) by (unfold a, fedors_atoms; cbv zeta; fold f; fold a1; fold a2; rewrite ?VV;
    repeat first [rewrite vsame | rewrite vother by reflexivity]; rewrite ?V2; reflexivity).
  assert (K17 : val a "ring_ring_bonds"%string = Z.of_nat (fm_ring_ring m)) by (unfold a, fedors_atoms; cbv zeta; fold f; fold a1; fold a2; rewrite ?VV;
    repeat first [rewrite vsame | rewrite vother by reflexivity]; rewrite ?V2; reflexivity).
  cbn [fedors_contributions fold_left]. rewrite !S. cbn [fst snd]. rewrite !VV.
  rewrite K0, K1, K2, K3, K4, K5, K6, K7, K8, K9, K10, K11, K12, K13, K14, K15, K16, K17.
  unfold bcount, zcount. rewrite filter_double, filter_triple, !filter_count, !minus_IZR, !Cn, <- !INR_IZR_INZ.
  unfold rg. lra.
Qed.

(* The status is OK exactly when every element is one of the nine known ones, every ring has three to six atoms
   and every bond is single, double, triple or aromatic; each flag says which of these fails. *)
Theorem C68_fedors_status : forall (m : fmol) Vc ok ua ub ur, Fedors m = (Vc, ok, ua, ub, ur) ->
  (ua = false <-> forall e n, In (e, n) (fm_formula m) ->
     In e ["C"; "H"; "O"; "N"; "F"; "Cl"; "Br"; "I"; "S"]%string) /\
  (ub = false <-> ~ In BOther (fm_bonds m)) /\
  (ur = false <-> forall s, In s (fm_rings m) -> (3 <= s <= 6)%nat) /\
  (ok = true <-> ua = false /\ ub = false /\ ur = false).
Proof.
  intros m Vc ok ua ub ur H. unfold Fedors in H. cbv zeta in H.
  remember (fold_left (fedors_step (fedors_atoms m)) fedors_contributions 26.6) as vc eqn:Evc. clear Evc.
  injection H as _ H1 H2 H3 H4. subst ok ua ub ur. splits.
  - unfold fedors_unknown. rewrite negb_false_iff, forallb_forall. split.
    + intros H e n Hi. specialize (H (e, n) Hi). cbn [fst] in H. apply existsb_exists in H.
      destruct H as (x & Hx & Ex). apply String.eqb_eq in Ex. subst x. exact Hx.
    + intros H [e n] Hi. apply existsb_exists. exists e. split; [exact (H e n Hi) | apply String.eqb_refl].
  - rewrite negb_false_iff, forallb_forall. split.
    + intros H Hi. specialize (H BOther Hi). discriminate.
    + intros H b Hi. destruct b; try reflexivity. contradiction.
  - rewrite negb_false_iff, forallb_forall. split.
    + intros H s Hi. specialize (H s Hi). unfold ring_known in H.
      destruct (Nat.eqb_spec s 3); [lia|]. destruct (Nat.eqb_spec s 4); [lia|].
      destruct (Nat.eqb_spec s 5); [lia|]. destruct (Nat.eqb_spec s 6); [lia|]. discriminate.
    + intros H s Hi. specialize (H s Hi). unfold ring_known.
      destruct s as [|[|[|[|[|[|[|s]]]]]]]; try reflexivity; lia.
  - rewrite negb_true_iff, !orb_false_iff. tauto.
Qed.

(* ------------------------------------------------------------------ Wilson and Jasperson *)
Lemma sassoc_has : forall m e, wj_has m e = has_element m e.
Proof.
  intros m e. unfold wj_has, has_element. induction (wm_atoms m) as [|[k n] l IH]; cbn [sassoc map fst existsb]; [reflexivity|].
  destruct (String.eqb e k); [reflexivity | exact IH].
Qed.

Lemma sassoc_count : forall (l : list (string * nat)) e, NoDup (map fst l) ->
  match sassoc l e with
  | Some c => existsb (String.eqb e) (map fst l) = true /\ c = atoms_of e l
  | None => existsb (String.eqb e) (map fst l) = false
  end.
Proof.
  induction l as [|[k n] l IH]; intros e N; cbn [sassoc map fst existsb atoms_of]; [reflexivity|].
  cbn [map fst] in N. inversion N as [|a b Hn Hd]; subst.
  destruct (String.eqb_spec e k) as [-> | D].
  - split; [reflexivity|]. destruct (string_dec k k) as [_|?]; [|congruence].
    assert (Z : atoms_of k l = 0%nat).
    { clear - Hn. induction l as [|[k' n'] l IH]; cbn [atoms_of]; [reflexivity|]. cbn [map fst In] in Hn.
      destruct (string_dec k' k) as [E|E]; [tauto|]. rewrite IH by tauto. reflexivity. }
    lia.
  - specialize (IH e Hd). destruct (string_dec k e) as [E|_]; [congruence|]. cbn [orb]. exact IH.
Qed.

Section W.
Variable wTc : string -> option R.
Variable wPc : string -> option (option R).
Definition incr_Tc (e : string) : R := match wTc e with Some x => x | None => 0 end.
Definition incr_Pc (e : string) : R := match wPc e with Some (Some x) => x | _ => 0 end.

Lemma wj_Tc_fold : forall l acc b,
  fst (fold_left (wj_Tc_step wTc) l (acc, b)) = acc + lsum l (fun kv => incr_Tc (fst kv) * INR (snd kv)) /\
  (snd (fold_left (wj_Tc_step wTc) l (acc, b)) = true <-> b = true \/ exists e n, In (e, n) l /\ wTc e = None).
Proof.
  induction l as [|[e n] l IH]; intros acc b; cbn [fold_left lsum fold_right].
  - cbn [fst snd]. split; [lra|]. split; [auto|]. intros [H | (e & n & [] & _)]; exact H.
  - unfold wj_Tc_step at 2 4. cbn [fst snd]. unfold incr_Tc at 1. destruct (wTc e) as [x|] eqn:E.
    + destruct (IH (acc + x * INR n) b) as [I1 I2]. split; [rewrite I1; unfold lsum; lra|].
      rewrite I2. split; intros [H | (e' & n' & Hi & He)]; auto.
      * right. exists e', n'. split; [right; exact Hi | exact He].
      * destruct Hi as [Hi | Hi]; [injection Hi as -> ->; congruence|]. right. exists e', n'. auto.
    + destruct (IH acc true) as [I1 I2]. split; [rewrite I1; unfold lsum; lra|].
      rewrite I2. split; intros _; [|auto]. right. exists e, n. split; [left; reflexivity | exact E].
Qed.
Lemma wj_Pc_fold : forall l acc b,
  fst (fold_left (wj_Pc_step wPc) l (acc, b)) = acc + lsum l (fun kv => incr_Pc (fst kv) * INR (snd kv)) /\
  (snd (fold_left (wj_Pc_step wPc) l (acc, b)) = true <->
   b = true \/ exists e n, In (e, n) l /\ (wPc e = None \/ wPc e = Some None)).
Proof.
  induction l as [|[e n] l IH]; intros acc b; cbn [fold_left lsum fold_right].
  - cbn [fst snd]. split; [lra|]. split; [auto|]. intros [H | (e & n & [] & _)]; exact H.
  - unfold wj_Pc_step at 2 4. cbn [fst snd]. unfold incr_Pc at 1. destruct (wPc e) as [[x|]|] eqn:E.
    + destruct (IH (acc + x * INR n) b) as [I1 I2]. split; [rewrite I1; unfold lsum; lra|].
      rewrite I2. split; intros [H | (e' & n' & Hi & He)]; auto.
      * right. exists e', n'. split; [right; exact Hi | exact He].
      * destruct Hi as [Hi | Hi]; [injection Hi as -> ->; destruct He; congruence|]. right. exists e', n'. auto.
    + destruct (IH acc true) as [I1 I2]. split; [rewrite I1; unfold lsum; lra|].
      rewrite I2. split; intros _; [|auto]. right. exists e, n. split; [left; reflexivity | auto].
    + destruct (IH acc true) as [I1 I2]. split; [rewrite I1; unfold lsum; lra|].
      rewrite I2. split; intros _; [|auto]. right. exists e, n. split; [left; reflexivity | auto].
Qed.

Lemma wj_second_Tc : forall m, NoDup (map fst (wm_atoms m)) -> wj_second fst (wj_counts m) = Some (wj_order2_Tc m).
Proof.
  intros m N. unfold wj_counts, wj_order2_Tc. rewrite !sassoc_has.
  pose proof (sassoc_count (wm_atoms m) "C" N) as HC.
  destruct (sassoc (wm_atoms m) "C") as [c|].
  - destruct HC as [HC ->]. change (has_element m "C" = true) in HC. rewrite HC.
    destruct (5 <=? atoms_of "C" (wm_atoms m))%nat; destruct (has_element m "N"); destruct (has_element m "O");
      destruct (has_element m "S"); destruct (has_element m "Si"); destruct (wm_haloalkane m);
      cbn [andb app]; unfold wj_second; cbn [fold_left fst snd];
      repeat match goal with |- context [sassoc wj_groups_table ?k] =>
        let v := eval cbn in (sassoc wj_groups_table k) in change (sassoc wj_groups_table k) with v; cbv iota beta end;
      cbn [fst snd Rif INR]; apply (f_equal Some); lra.
  - change (has_element m "C" = false) in HC. rewrite HC.
    destruct (has_element m "N"); destruct (has_element m "O");
      destruct (has_element m "S"); destruct (has_element m "Si"); destruct (wm_haloalkane m);
      cbn [andb app]; unfold wj_second; cbn [fold_left fst snd];
      repeat match goal with |- context [sassoc wj_groups_table ?k] =>
        let v := eval cbn in (sassoc wj_groups_table k) in change (sassoc wj_groups_table k) with v; cbv iota beta end;
      cbn [fst snd Rif INR]; apply (f_equal Some); lra.
Qed.
Lemma wj_second_Pc : forall m, NoDup (map fst (wm_atoms m)) -> wj_second snd (wj_counts m) = Some (wj_order2_Pc m).
Proof.
  intros m N. unfold wj_counts, wj_order2_Pc. rewrite !sassoc_has.
  pose proof (sassoc_count (wm_atoms m) "C" N) as HC.
  destruct (sassoc (wm_atoms m) "C") as [c|].
  - destruct HC as [HC ->]. change (has_element m "C" = true) in HC. rewrite HC.
    destruct (5 <=? atoms_of "C" (wm_atoms m))%nat; destruct (has_element m "N"); destruct (has_element m "O");
      destruct (has_element m "S"); destruct (has_element m "Si"); destruct (wm_haloalkane m);
      cbn [andb app]; unfold wj_second; cbn [fold_left fst snd];
      repeat match goal with |- context [sassoc wj_groups_table ?k] =>
        let v := eval cbn in (sassoc wj_groups_table k) in change (sassoc wj_groups_table k) with v; cbv iota beta end;
      cbn [fst snd Rif INR]; apply (f_equal Some); lra.
  - change (has_element m "C" = false) in HC. rewrite HC.
    destruct (has_element m "N"); destruct (has_element m "O");
      destruct (has_element m "S"); destruct (has_element m "Si"); destruct (wm_haloalkane m);
      cbn [andb app]; unfold wj_second; cbn [fold_left fst snd];
      repeat match goal with |- context [sassoc wj_groups_table ?k] =>
        let v := eval cbn in (sassoc wj_groups_table k) in change (sassoc wj_groups_table k) with v; cbv iota beta end;
      cbn [fst snd Rif INR]; apply (f_equal Some); lra.
Qed.

(* The sum under the fifth root and the exponent of the pressure. *)
Definition wj_den (m : wmol) (second_order : bool) : R :=
  0.048271 - 0.019846 * INR (wm_rings m) + lsum (wm_atoms m) (fun kv => incr_Tc (fst kv) * INR (snd kv))
  + Rif second_order (wj_order2_Tc m).
Definition wj_Y (m : wmol) (second_order : bool) : R :=
  -0.00922295 - 0.0290403 * INR (wm_rings m)
  + 0.041 * (Rif second_order (wj_order2_Pc m) + lsum (wm_atoms m) (fun kv => incr_Pc (fst kv) * INR (snd kv))).

(* Every answer: the fifth power of Tc/Tb is the inverse of the sum when that is positive, and 2.5 Tb (flagged) when
   it is negative; the pressure follows from Tc; the first flag is raised exactly for an element without increment or a
   negative sum, the second exactly for an element without pressure increment.  No answer: only a division by zero. *)
Theorem C68_wilson_jasperson : forall (m : wmol) (Tb : R) (second : bool),
  NoDup (map fst (wm_atoms m)) -> 0 < Tb ->
  match Wilson_Jasperson wTc wPc m Tb second with
  | WjVal Tc Pc mT mP =>
      0 < Tc /\
      (0 < wj_den m second /\ Tc ^ 5 * wj_den m second = Tb ^ 5 \/ wj_den m second < 0 /\ Tc = 2.5 * Tb) /\
      Pc * (exp (wj_Y m second) - 0.96601) = 1862.33 * Tc /\
      (mT = true <-> wj_den m second < 0 \/ exists e n, In (e, n) (wm_atoms m) /\ wTc e = None) /\
      (mP = true <-> exists e n, In (e, n) (wm_atoms m) /\ (wPc e = None \/ wPc e = Some None))
  | WjZeroDivision => wj_den m second = 0 \/ exp (wj_Y m second) = 0.96601
  | WjKeyError => False
  end.
Proof.
  intros m Tb second N HTb. unfold Wilson_Jasperson.
  destruct (wj_Tc_fold (wm_atoms m) 0 false) as [T1 T2].
  destruct (wj_Pc_fold (wm_atoms m) 0 false) as [P1 P2].
  destruct (fold_left (wj_Tc_step wTc) (wm_atoms m) (0, false)) as [ti mT].
  destruct (fold_left (wj_Pc_step wPc) (wm_atoms m) (0, false)) as [pi mP].
  cbn [fst snd] in T1, T2, P1, P2.
  assert (ST : (if second then wj_second fst (wj_counts m) else Some 0) = Some (Rif second (wj_order2_Tc m)))
    by (destruct second; [apply wj_second_Tc; exact N | reflexivity]).
  assert (SP : (if second then wj_second snd (wj_counts m) else Some 0) = Some (Rif second (wj_order2_Pc m)))
    by (destruct second; [apply wj_second_Pc; exact N | reflexivity]).
  rewrite ST, SP. cbv zeta.
  assert (ED : 0.048271 - 0.019846 * INR (wm_rings m) + ti + Rif second (wj_order2_Tc m) = wj_den m second)
    by (unfold wj_den; rewrite T1; lra).
  assert (EY : -0.00922295 - 0.0290403 * INR (wm_rings m) + 0.041 * (Rif second (wj_order2_Pc m) + pi) = wj_Y m second)
    by (unfold wj_Y; rewrite P1; lra).
  rewrite ED, EY. clear ST SP ED EY T1 P1. set (den := wj_den m second). set (Y := wj_Y m second). clearbody den Y.
  assert (T2' : mT = true <-> exists e n, In (e, n) (wm_atoms m) /\ wTc e = None).
  { rewrite T2. split; [intros [H|H]; [discriminate | exact H] | auto]. }
  assert (P2' : mP = true <-> exists e n, In (e, n) (wm_atoms m) /\ (wPc e = None \/ wPc e = Some None)).
  { rewrite P2. split; [intros [H|H]; [discriminate | exact H] | auto]. }
  assert (QF : forall y x, -0.96601 + exp y <> 0 ->
    0.0186233 * x / (-0.96601 + exp y) * 100000 * (exp y - 0.96601) = 1862.33 * x).
  { intros y x Q. replace (exp y - 0.96601) with (-0.96601 + exp y) by lra.
    set (q := -0.96601 + exp y) in *. clearbody q. unfold Rdiv.
    replace (0.0186233 * x * / q * 100000 * q) with (1862.33 * x * (/ q * q)) by lra.
    rewrite Rinv_l by exact Q. lra. }
  destruct (Rleb_spec 0 den) as [Hd|Hd].
  - destruct (Reqb_spec den 0) as [Z|Z]; [left; exact Z|]. assert (Hp : 0 < den) by lra.
    destruct (Reqb_spec (-0.96601 + exp Y) 0) as [Q|Q]; [right; lra|].
    assert (RP : 0 < Rpower den 0.2) by apply exp_pos.
    assert (R5 : Rpower den 0.2 ^ 5 = den).
    { rewrite <- Rpower_pow by exact RP. rewrite Rpower_mult.
      replace (0.2 * INR 5) with 1 by (cbn [INR]; lra). apply Rpower_1. exact Hp. }
    set (r := Rpower den 0.2) in *. clearbody r. splits.
    + apply Rdiv_lt_0_compat; assumption.
    + left. split; [exact Hp|]. rewrite <- R5. field. lra.
    + exact (QF Y _ Q).
    + rewrite T2'. split; [auto | intros [H|H]; [lra | exact H]].
    + exact P2'.
  - apply Rnot_le_lt in Hd. destruct (Reqb_spec (-0.96601 + exp Y) 0) as [Q|Q]; [right; lra|]. splits.
    + lra.
    + right. split; [exact Hd | lra].
    + exact (QF Y _ Q).
    + split; auto.
    + exact P2'.
Qed.
End W.

(* Finding: the flag of the pressure does not follow that of the temperature.  Two caesium atoms have a negative sum:
   Tc is the flagged stand-in 2.5 Tb, Pc is computed from it, and its flag says nothing is missing. *)
Theorem C68_wilson_flag_refuted : exists Tc Pc,
  Wilson_Jasperson (fun e => if String.eqb e "Cs" then Some (-0.0275) else None)
                   (fun e => if String.eqb e "Cs" then Some (Some 6.33) else None)
                   (WM 0 [("Cs"%string, 2%nat)] 0 0 0 0 0 0 0 0 0 false 0 0) 900 true = WjVal Tc Pc true false /\
  Tc = 2.5 * 900.
Proof.
  set (m := WM 0 [("Cs"%string, 2%nat)] 0 0 0 0 0 0 0 0 0 false 0 0).
  set (wT := fun e => if String.eqb e "Cs" then Some (-0.0275) else None).
  set (wP := fun e => if String.eqb e "Cs" then Some (Some 6.33) else None).
  assert (N : NoDup (map fst (wm_atoms m))) by (cbn; constructor; [intros [] | constructor]).
  pose proof (C68_wilson_jasperson wT wP m 900 true N ltac:(lra)) as H.
  assert (D : wj_den wT m true < 0).
  { unfold wj_den, wj_order2_Tc, incr_Tc, m. cbn. lra. }
  assert (EY : 1 < exp (wj_Y wP m true)).
  { rewrite <- exp_0 at 1. apply exp_increasing. unfold wj_Y, wj_order2_Pc, incr_Pc, m. cbn. lra. }
  destruct (Wilson_Jasperson wT wP m 900 true) as [| |Tc Pc mT mP].
  - exfalso. destruct H; lra.
  - destruct H.
  - destruct H as (_ & H & _ & HT & HP). exists Tc, Pc. split.
    + f_equal; [apply HT; auto|]. destruct mP; [|reflexivity]. exfalso.
      destruct HP as [HP _]. destruct (HP eq_refl) as (e & n & [Hi | []] & Hc). injection Hi as <- <-.
      cbn in Hc. destruct Hc; discriminate.
    + destruct H as [[H _] | [_ H]]; lra.
Qed.

(* ------------------------------------------------------------------ PPR78: the table *)
Lemma fold_pairs : forall {A} (f : A -> nat -> nat -> A) (l1 l2 : list nat) (a : A),
  fold_left (fun d k => fold_left (fun d l => f d k l) l2 d) l1 a =
  fold_left (fun d kl => f d (fst kl) (snd kl)) (list_prod l1 l2) a.
Proof.
  intros A f l1 l2.
  assert (I : forall k ls b, fold_left (fun d l => f d k l) ls b =
    fold_left (fun d kl => f d (fst kl) (snd kl)) (map (fun y => (k, y)) ls) b)
    by (intros k; induction ls as [|l ls IH]; intros b; cbn [fold_left map fst snd]; [reflexivity | apply IH]).
  induction l1 as [|k l1 IH]; intros a; cbn [fold_left list_prod]; [reflexivity|].
  rewrite fold_left_app, IH. f_equal. apply I.
Qed.

(* what the other direction of a pair says *)
Definition other_way (d : itable) (k l : nat) : R * R := match d l k with Some v => v | None => (0, 0) end.

Lemma sym_inv : forall (d : itable) (L : list (nat * nat)),
  let d' := fold_left (fun d kl => sym_step d (fst kl) (snd kl)) L d in
  (forall k l v, d k l = Some v -> d' k l = Some v) /\
  (forall k l, d k l = None -> d' k l = None \/ d' k l = Some (other_way d k l)) /\
  (forall k l, In (k, l) L -> d' l k <> None) /\
  (forall k l, ~ In (k, l) L -> ~ In (l, k) L -> d' k l = d k l).
Proof.
  intros d L. induction L as [|[k l] L IH] using rev_ind; cbn [fold_left].
  - cbv zeta. splits; auto; intros k l; cbn; tauto.
  - cbv zeta in IH |- *. rewrite fold_left_app. cbn [fold_left fst snd].
    set (d' := fold_left (fun d kl => sym_step d (fst kl) (snd kl)) L d) in *. clearbody d'.
    destruct IH as (I1 & I2 & I3 & I4).
    assert (S : forall a b, sym_step d' k l a b =
      match d' a b with
      | Some v => Some v
      | None => if (a =? l)%nat && (b =? k)%nat && iin d' k l then d' k l
                else if ((a =? k)%nat && (b =? l)%nat || (a =? l)%nat && (b =? k)%nat) && negb (iin d' k l) && negb (iin d' l k)
                then Some (0, 0) else None
      end).
    { intros a b. unfold sym_step, iin, iset. cbv zeta.
      destruct (d' k l) as [v|] eqn:E1; destruct (d' l k) as [w|] eqn:E2; cbn [negb andb];
        rewrite ?E1, ?E2, ?Nat.eqb_refl; cbn [andb negb];
        destruct (Nat.eqb_spec a l) as [-> |Na]; destruct (Nat.eqb_spec b k) as [-> |Nb];
        try destruct (Nat.eqb_spec a k) as [-> |Nc]; try destruct (Nat.eqb_spec b l) as [-> |Nd];
        cbn [andb orb negb];
        rewrite ?Nat.eqb_refl, ?E1, ?E2; cbn [andb orb negb]; rewrite ?E1, ?E2; try reflexivity;
        repeat match goal with |- context [(?x =? ?y)%nat] => destruct (Nat.eqb_spec x y); subst; cbn [andb orb negb] end;
        rewrite ?E1, ?E2; try reflexivity; try congruence;
        repeat match goal with |- context [match d' ?x ?y with _ => _ end] => destruct (d' x y) eqn:? end;
        try congruence. }
    splits.
    + intros a b v H. rewrite S, (I1 a b v H). reflexivity.
    + intros a b H. rewrite S. destruct (I2 a b H) as [-> | ->]; [|right; reflexivity].
      destruct ((a =? l)%nat && (b =? k)%nat && iin d' k l) eqn:E.
      * apply andb_prop in E. destruct E as [E Ei]. apply andb_prop in E. destruct E as [E1 E2].
        apply Nat.eqb_eq in E1. apply Nat.eqb_eq in E2. subst a b. right.
        unfold iin in Ei. destruct (d' k l) as [v|] eqn:Ev; [|discriminate]. f_equal. unfold other_way.
        destruct (d k l) as [v0|] eqn:Ed.
        -- specialize (I1 k l v0 Ed). congruence.
        -- destruct (I2 k l Ed) as [Q | Q]; [congruence|]. rewrite Ev in Q. injection Q as ->. unfold other_way. rewrite H. reflexivity.
      * destruct (((a =? k)%nat && (b =? l)%nat || (a =? l)%nat && (b =? k)%nat) && negb (iin d' k l) && negb (iin d' l k)) eqn:E'; [|left; reflexivity].
        right. f_equal. apply andb_prop in E'. destruct E' as [E' Z2]. apply andb_prop in E'. destruct E' as [E' Z1].
        unfold iin in Z1, Z2.
        assert (D1 : d k l = None).
        { destruct (d k l) as [v|] eqn:Ed; [|reflexivity]. rewrite (I1 k l v Ed) in Z1. discriminate. }
        assert (D2 : d l k = None).
        { destruct (d l k) as [v|] eqn:Ed; [|reflexivity]. rewrite (I1 l k v Ed) in Z2. discriminate. }
        unfold other_way. apply orb_prop in E'. destruct E' as [E' | E']; apply andb_prop in E'; destruct E' as [Q1 Q2];
          apply Nat.eqb_eq in Q1; apply Nat.eqb_eq in Q2; subst a b; rewrite ?D1, ?D2; reflexivity.
    + intros a b Hi. apply in_app_or in Hi. rewrite S. destruct Hi as [Hi | [Hi | []]].
      * specialize (I3 a b Hi). destruct (d' b a); [discriminate | congruence].
      * injection Hi as -> ->. destruct (d' b a) eqn:E; [discriminate|]. rewrite !Nat.eqb_refl. unfold iin.
        destruct (d' a b) eqn:E2; cbn [andb orb negb]; [discriminate|]. rewrite orb_true_r, E. cbn. discriminate.
    + intros a b H1 H2. rewrite in_app_iff in H1, H2. cbn [In] in H1, H2.
      rewrite S. rewrite I4 by tauto. destruct (d a b) eqn:E; [reflexivity|].
      assert (X1 : ~ (a = k /\ b = l)) by (intros [-> ->]; apply H1; auto).
      assert (X2 : ~ (a = l /\ b = k)) by (intros [-> ->]; apply H2; auto).
      destruct (Nat.eqb_spec a l), (Nat.eqb_spec b k), (Nat.eqb_spec a k), (Nat.eqb_spec b l); cbn [andb orb];
        try reflexivity; exfalso; tauto.
Qed.

(* After the loop every pair of groups has an entry: its own if it had one, else the one of the reversed pair, else
   zeros.  So a pair entered one way only reads the same both ways, and nothing outside the groups changes. *)
Theorem C68_ppr_table : forall (groups : list nat) (d : itable) (k l : nat),
  (In k groups -> In l groups ->
     symmetrise groups d k l = Some (match d k l with Some v => v | None =>
                                     match d l k with Some v => v | None => (0, 0) end end)) /\
  (~ (In k groups /\ In l groups) -> symmetrise groups d k l = d k l).
Proof.
  intros groups d k l. unfold symmetrise. rewrite (fold_pairs sym_step).
  destruct (sym_inv d (list_prod groups groups)) as (I1 & I2 & I3 & I4). split.
  - intros Hk Hl. destruct (d k l) as [v|] eqn:E; [apply I1; exact E|].
    destruct (I2 k l E) as [H | H]; [|exact H]. exfalso. apply (I3 l k); [apply in_prod; auto | exact H].
  - intros H. apply I4; rewrite in_prod_iff; tauto.
Qed.

(* ------------------------------------------------------------------ PPR78: one parameter *)
Lemma lsum_perm : forall {A} (l l' : list A) (f : A -> R), Permutation l l' -> lsum l f = lsum l' f.
Proof. intros A l l' f P. induction P; unfold lsum in *; cbn [fold_right]; lra. Qed.
Lemma lsum_cons : forall {A} (a : A) (l : list A) (f : A -> R), lsum (a :: l) f = f a + lsum l f.
Proof. reflexivity. Qed.
Lemma lsum_ext : forall {A} (l : list A) (f g : A -> R), (forall x, In x l -> f x = g x) -> lsum l f = lsum l g.
Proof.
  intros A l f g H. induction l as [|a l IH]; unfold lsum in *; cbn [fold_right]; [reflexivity|].
  rewrite (H a) by (left; reflexivity). rewrite IH; [reflexivity|]. intros x Hx. apply H. right; exact Hx.
Qed.
Lemma lsum_zero : forall {A} (l : list A) (f : A -> R), (forall x, In x l -> f x = 0) -> lsum l f = 0.
Proof.
  intros A l f H. induction l as [|a l IH]; unfold lsum in *; cbn [fold_right]; [reflexivity|].
  rewrite (H a) by (left; reflexivity). rewrite IH; [lra|]. intros x Hx. apply H. right; exact Hx.
Qed.

Lemma gtotal_sum : forall g, gtotal g = lsum g snd.
Proof.
  intros g. unfold gtotal. assert (H : forall l s, fold_left (fun s (gn : nat * R) => s + snd gn) l s = s + lsum l snd).
  { induction l as [|a l IH]; intros s; cbn [fold_left]; unfold lsum in *; cbn [fold_right]; [lra|]. rewrite IH. lra. }
  rewrite H. lra.
Qed.

Lemma lsum_none : forall (g : list (nat * R)) k, ~ In k (map fst g) ->
  lsum g (fun gn => if Nat.eq_dec (fst gn) k then snd gn else 0) = 0.
Proof.
  intros g k H. apply lsum_zero. intros [k' n] Hi. cbn [fst snd]. destruct (Nat.eq_dec k' k) as [-> |]; [|reflexivity].
  exfalso. apply H. apply in_map_iff. exists (k, n). auto.
Qed.

Lemma gget_fraction : forall g k, NoDup (map fst g) -> gget (gfrac g) k = fraction g k.
Proof.
  intros g k N. unfold fraction. rewrite <- gtotal_sum. unfold gfrac. generalize (gtotal g). intros t.
  unfold gget. induction g as [|[k' n] g IH].
  - cbn. unfold Rdiv. lra.
  - cbn [map fst snd] in *. inversion N as [|a b Hn Hd]; subst. cbn [glook].
    destruct (Nat.eqb_spec k k') as [-> | D].
    + unfold lsum. cbn [fold_right fst snd]. fold (lsum g (fun gn => if Nat.eq_dec (fst gn) k' then snd gn else 0)).
      rewrite lsum_none by exact Hn. destruct (Nat.eq_dec k' k'); [|congruence]. unfold Rdiv. lra.
    + rewrite IH by exact Hd. unfold lsum. cbn [fold_right fst snd]. destruct (Nat.eq_dec k' k); [congruence|].
      unfold Rdiv. lra.
Qed.

(* one term of the double sum *)
Definition eterm (d : itable) (T : R) (g1 g2 : list (nat * R)) (k l : nat) : R :=
  match d k l with
  | Some (A, B) => if Req_EM_T A 0 then 0
                   else (fraction g1 k - fraction g2 k) * (fraction g1 l - fraction g2 l) * A * Rpower (298.15 / T) (B / A - 1)
  | None => 0
  end.

Lemma ppr_sum_char : forall d T g1 g2 (gs : list nat), NoDup (map fst g1) -> NoDup (map fst g2) ->
  match ppr_sum d T (gfrac g1) (gfrac g2) gs with
  | Some s => (forall k l, In k gs -> In l gs -> d k l <> None) /\
              s = lsum gs (fun k => lsum gs (fun l => eterm d T g1 g2 k l))
  | None => exists k l, In k gs /\ In l gs /\ d k l = None
  end.
Proof.
  intros d T g1 g2 gs N1 N2. unfold ppr_sum.
  assert (In1 : forall k ls t,
    match fold_left (fun acc l => ppr_term d T (gfrac g1) (gfrac g2) k l acc) ls (Some t) with
    | Some s => (forall l, In l ls -> d k l <> None) /\ s = t + lsum ls (fun l => eterm d T g1 g2 k l)
    | None => exists l, In l ls /\ d k l = None
    end).
  { intros k. induction ls as [|l ls IH]; intros t; cbn [fold_left].
    - split; [intros l [] | unfold lsum; cbn [fold_right]; lra].
    - unfold ppr_term at 2. destruct (d k l) as [[A B]|] eqn:E.
      + set (t' := if Reqb A 0 then t else t + (gget (gfrac g1) k - gget (gfrac g2) k) * (gget (gfrac g1) l - gget (gfrac g2) l) * A * Rpower (298.15 / T) (B / A - 1)).
        assert (Et : t' = t + eterm d T g1 g2 k l).
        { unfold t', eterm. rewrite E, !gget_fraction by assumption. unfold Reqb. destruct (Req_EM_T A 0); lra. }
        assert (Es : (if Reqb A 0 then Some t else Some (t + (gget (gfrac g1) k - gget (gfrac g2) k) * (gget (gfrac g1) l - gget (gfrac g2) l) * A * Rpower (298.15 / T) (B / A - 1))) = Some t')
          by (unfold t'; destruct (Reqb A 0); reflexivity).
        rewrite Es. specialize (IH t').
        destruct (fold_left (fun acc l0 => ppr_term d T (gfrac g1) (gfrac g2) k l0 acc) ls (Some t')) as [s|].
        * destruct IH as [I1 ->]. split.
          -- intros l' [<- | Hl]; [rewrite E; discriminate | auto].
          -- rewrite Et. unfold lsum. cbn [fold_right]. lra.
        * destruct IH as (l' & Hl & E'). exists l'. split; [right; exact Hl | exact E'].
      + assert (N : forall ls, fold_left (fun acc l0 => ppr_term d T (gfrac g1) (gfrac g2) k l0 acc) ls None = None)
          by (induction ls0; cbn [fold_left]; auto).
        rewrite N. exists l. split; [left; reflexivity | exact E]. }
  assert (Out : forall ks t,
    match fold_left (fun acc k => fold_left (fun acc l => ppr_term d T (gfrac g1) (gfrac g2) k l acc) gs acc) ks (Some t) with
    | Some s => (forall k l, In k ks -> In l gs -> d k l <> None) /\ s = t + lsum ks (fun k => lsum gs (fun l => eterm d T g1 g2 k l))
    | None => exists k l, In k ks /\ In l gs /\ d k l = None
    end).
  { induction ks as [|k ks IH]; intros t; cbn [fold_left].
    - split; [intros k l [] | unfold lsum at 1; cbn [fold_right]; lra].
    - specialize (In1 k gs t).
      destruct (fold_left (fun acc l => ppr_term d T (gfrac g1) (gfrac g2) k l acc) gs (Some t)) as [s|].
      + destruct In1 as [I1 ->]. specialize (IH (t + lsum gs (fun l => eterm d T g1 g2 k l))).
        match goal with |- match ?F with _ => _ end => destruct F as [s|] end.
        * destruct IH as [I2 ->]. split; [intros k' l [<- | Hk] Hl; auto|]. rewrite lsum_cons. lra.
        * destruct IH as (k' & l & Hk & Hl & E). exists k', l. split; [right; exact Hk | auto].
      + destruct In1 as (l & Hl & E).
        assert (N2' : forall ls k0, fold_left (fun acc l0 => ppr_term d T (gfrac g1) (gfrac g2) k0 l0 acc) ls None = None)
          by (induction ls; cbn [fold_left]; auto).
        assert (N : forall ks, fold_left (fun acc k0 => fold_left (fun acc l0 => ppr_term d T (gfrac g1) (gfrac g2) k0 l0 acc) gs acc) ks None = None)
          by (induction ks0; cbn [fold_left]; [reflexivity | rewrite N2'; auto]).
        rewrite N. exists k, l. split; [left; reflexivity | auto]. }
  specialize (Out gs 0). match goal with |- match ?F with _ => _ end => destruct F as [s|] end; [|exact Out].
  destruct Out as [O1 ->]. split; [exact O1 | lra].
Qed.

Lemma gunion_perm : forall g1 g2 (gs : list nat), NoDup gs ->
  (forall g, In g gs <-> In g (map fst g1) \/ In g (map fst g2)) -> Permutation (gunion g1 g2) gs.
Proof.
  intros g1 g2 gs N H. apply NoDup_Permutation; [apply NoDup_nodup | exact N|].
  intros g. unfold gunion. rewrite nodup_In, in_app_iff, H. tauto.
Qed.

Lemma eterm_dsum : forall d T g1 g2 gs, - / 2 * 1000000 * lsum gs (fun k => lsum gs (fun l => eterm d T g1 g2 k l)) = E_PPR78 d T g1 g2 gs.
Proof. intros. reflexivity. Qed.

Lemma dsum_perm : forall (gs gs' : list nat) (h : nat -> nat -> R), Permutation gs gs' ->
  lsum gs (fun k => lsum gs (fun l => h k l)) = lsum gs' (fun k => lsum gs' (fun l => h k l)).
Proof.
  intros gs gs' h P. rewrite (lsum_perm gs gs' _ P). apply lsum_ext. intros k _. apply lsum_perm. exact P.
Qed.

Lemma ppr_b_spec : forall Tc Pc, ppr_b Tc Pc = b_PR78 Tc Pc.
Proof. intros. unfold ppr_b, b_PR78, OMEGA_B, Rdiv. ring. Qed.
Lemma ppr_a_spec : forall T Tc Pc w, ppr_a T Tc Pc w = a_PR78 T Tc Pc w.
Proof.
  intros. unfold ppr_a, a_PR78, OMEGA_A, ppr_m, Rleb. destruct (Rle_dec w 0.491); reflexivity.
Qed.
Lemma a_nonneg : forall T Tc Pc w, 0 < Pc -> 0 <= a_PR78 T Tc Pc w.
Proof.
  intros T Tc Pc w HP. unfold a_PR78. cbv zeta. apply Rmult_le_pos.
  - unfold Rdiv. apply Rmult_le_pos; [|left; apply Rinv_0_lt_compat; exact HP].
    apply Rmult_le_pos; [|apply pow2_ge_0]. apply Rmult_le_pos; [lra | apply pow2_ge_0].
  - apply pow2_ge_0.
Qed.
Lemma b_pos : forall Tc Pc, 0 < Tc -> 0 < Pc -> 0 < b_PR78 Tc Pc.
Proof.
  intros. unfold b_PR78. pose proof Rgas_pos. unfold Rdiv. apply Rmult_lt_0_compat; [|apply Rinv_0_lt_compat; auto].
  apply Rmult_lt_0_compat; [|auto]. apply Rmult_lt_0_compat; [lra | auto].
Qed.

(* The defining equation: with the interaction parameter returned, the cross term of the van der Waals mixing rule,
   a12 = sqrt(a1 a2) (1 - k), is such that 2 a12/(b1 b2) = a1/b1^2 + a2/b2^2 - E(T), E the sum over pairs of groups in
   any order; an answer exists exactly when every pair of groups is in the table, the counts do not cancel, and neither attraction vanishes. *)
Theorem C68_ppr_equation : forall (d : itable) (T : R) (g1 g2 : list (nat * R)) (Tc1 Pc1 w1 Tc2 Pc2 w2 : R) (gs : list nat),
  NoDup (map fst g1) -> NoDup (map fst g2) -> 0 < Tc1 -> 0 < Pc1 -> 0 < Tc2 -> 0 < Pc2 ->
  NoDup gs -> (forall g, In g gs <-> In g (map fst g1) \/ In g (map fst g2)) ->
  let a1 := a_PR78 T Tc1 Pc1 w1 in let a2 := a_PR78 T Tc2 Pc2 w2 in
  let b1 := b_PR78 Tc1 Pc1 in let b2 := b_PR78 Tc2 Pc2 in
  (forall k, PPR78_kij d T g1 g2 Tc1 Pc1 w1 Tc2 Pc2 w2 = KVal k ->
     2 * (sqrt (a1 * a2) * (1 - k)) / (b1 * b2) = a1 / b1 ^ 2 + a2 / b2 ^ 2 - E_PPR78 d T g1 g2 gs) /\
  ((exists k, PPR78_kij d T g1 g2 Tc1 Pc1 w1 Tc2 Pc2 w2 = KVal k) <->
     (g1 = [] \/ lsum g1 snd <> 0) /\ (g2 = [] \/ lsum g2 snd <> 0) /\ a1 <> 0 /\ a2 <> 0 /\
     (forall k l, In k gs -> In l gs -> d k l <> None)).
Proof.
  intros d T g1 g2 Tc1 Pc1 w1 Tc2 Pc2 w2 gs N1 N2 HT1 HP1 HT2 HP2 Ng Hg a1 a2 b1 b2.
  assert (A1 : 0 <= a1) by (apply a_nonneg; auto). assert (A2 : 0 <= a2) by (apply a_nonneg; auto).
  assert (B1 : 0 < b1) by (apply b_pos; auto). assert (B2 : 0 < b2) by (apply b_pos; auto).
  pose proof (gunion_perm g1 g2 gs Ng Hg) as P.
  pose proof (ppr_sum_char d T g1 g2 (gunion g1 g2) N1 N2) as S.
  assert (KK : (forall k l, In k (gunion g1 g2) -> In l (gunion g1 g2) -> d k l <> None) <->
               (forall k l, In k gs -> In l gs -> d k l <> None)).
  { split; intros H k l Hk Hl; apply H; try (eapply Permutation_in; [exact P | assumption]);
      (eapply Permutation_in; [apply Permutation_sym; exact P | assumption]). }
  assert (Zd : 2 * sqrt (a1 * a2) / (b1 * b2) = 0 <-> a1 = 0 \/ a2 = 0).
  { split.
    - intros H. assert (Q : sqrt (a1 * a2) = 0).
      { assert (b1 * b2 <> 0) by (apply Rgt_not_eq; nra).
        apply Rmult_eq_reg_l with (2 / (b1 * b2)).
        - rewrite Rmult_0_r. rewrite <- H. field. split; lra.
        - unfold Rdiv. apply Rmult_integral_contrapositive. split; [lra | apply Rinv_neq_0_compat; auto]. }
      apply sqrt_eq_0 in Q; [|nra]. apply Rmult_integral. exact Q.
    - intros [-> | ->]; rewrite ?Rmult_0_l, ?Rmult_0_r, sqrt_0; unfold Rdiv; ring. }
  unfold PPR78_kij. cbv zeta. rewrite !ppr_a_spec, !ppr_b_spec. fold a1 a2 b1 b2.
  assert (Tot : forall g : list (nat * R), (match g with [] => false | _ => Reqb (gtotal g) 0 end) = false <-> (g = [] \/ lsum g snd <> 0)).
  { intros g. rewrite <- gtotal_sum. destruct g as [|p q]; [tauto|]. destruct (Reqb_spec (gtotal (p :: q)) 0); split; try discriminate; auto.
    intros [H | H]; [discriminate | contradiction]. }
  destruct ((match g1 with [] => false | _ => Reqb (gtotal g1) 0 end) || (match g2 with [] => false | _ => Reqb (gtotal g2) 0 end)) eqn:EZ.
  { split; [discriminate|]. split; [intros [k Hk]; discriminate|]. intros (G1 & G2 & _). exfalso.
    apply Tot in G1. apply Tot in G2. rewrite G1, G2 in EZ. discriminate. }
  apply orb_false_iff in EZ. destruct EZ as [Z1 Z2]. apply Tot in Z1. apply Tot in Z2.
  destruct (ppr_sum d T (gfrac g1) (gfrac g2) (gunion g1 g2)) as [s|].
  - destruct S as [K Es]. destruct (Reqb_spec (2 * sqrt (a1 * a2) / (b1 * b2)) 0) as [Q|Q].
    + split; [discriminate|]. split; [intros [k Hk]; discriminate|]. intros (_ & _ & X1 & X2 & _). apply Zd in Q. tauto.
    + split.
      * intros k H. injection H as <-.
        rewrite <- eterm_dsum. rewrite <- (dsum_perm _ _ _ P), <- Es.
        assert (NZ : a1 <> 0 /\ a2 <> 0) by tauto.
        assert (P1 : 0 < sqrt a1) by (apply sqrt_lt_R0; lra). assert (P2 : 0 < sqrt a2) by (apply sqrt_lt_R0; lra).
        rewrite sqrt_mult by auto.
        assert (Q1 : a1 = sqrt a1 ^ 2) by (rewrite pow2_sqrt; auto). assert (Q2 : a2 = sqrt a2 ^ 2) by (rewrite pow2_sqrt; auto).
        replace (a1 / b1 ^ 2) with (sqrt a1 ^ 2 / b1 ^ 2) by (rewrite <- Q1; reflexivity).
        replace (a2 / b2 ^ 2) with (sqrt a2 ^ 2 / b2 ^ 2) by (rewrite <- Q2; reflexivity). clear - P1 P2 B1 B2.
        set (x := sqrt a1) in *. set (y := sqrt a2) in *. clearbody x y b1 b2. replace (-0.5) with (- / 2) by lra. field. lra.
      * split; [|intros _; eauto]. intros _. splits; auto; [tauto | tauto | apply KK; exact K].
  - destruct S as (k & l & Hk & Hl & E). split; [discriminate|]. split; [intros [v Hv]; discriminate|].
    intros (_ & _ & _ & _ & K). exfalso. exact (proj2 KK K k l Hk Hl E).
Qed.

(* Exchanging the two molecules changes nothing, whatever the table: not even one that reads differently both ways. *)
Theorem C68_ppr_swap : forall (d : itable) (T : R) (c1 c2 : pcomp),
  NoDup (map fst (pc_groups c1)) -> NoDup (map fst (pc_groups c2)) -> pair_kij d T c1 c2 = pair_kij d T c2 c1.
Proof.
  intros d T [g1 Tc1 Pc1 w1] [g2 Tc2 Pc2 w2] N1 N2. unfold pair_kij. cbn [pc_groups pc_Tc pc_Pc pc_omega] in *.
  unfold PPR78_kij. cbv zeta.
  rewrite (orb_comm (match g1 with [] => false | _ => Reqb (gtotal g1) 0 end)).
  destruct ((match g2 with [] => false | _ => Reqb (gtotal g2) 0 end) || (match g1 with [] => false | _ => Reqb (gtotal g1) 0 end)); [reflexivity|].
  pose proof (ppr_sum_char d T g1 g2 (gunion g1 g2) N1 N2) as S1.
  pose proof (ppr_sum_char d T g2 g1 (gunion g2 g1) N2 N1) as S2.
  assert (P : Permutation (gunion g1 g2) (gunion g2 g1)).
  { apply gunion_perm; [apply NoDup_nodup|]. intros g. unfold gunion. rewrite nodup_In, in_app_iff. tauto. }
  assert (ES : ppr_sum d T (gfrac g1) (gfrac g2) (gunion g1 g2) = ppr_sum d T (gfrac g2) (gfrac g1) (gunion g2 g1)).
  { destruct (ppr_sum d T (gfrac g1) (gfrac g2) (gunion g1 g2)) as [s1|];
      destruct (ppr_sum d T (gfrac g2) (gfrac g1) (gunion g2 g1)) as [s2|].
    - f_equal. destruct S1 as [_ ->]. destruct S2 as [_ ->]. rewrite (dsum_perm _ _ _ P).
      apply lsum_ext. intros k _. apply lsum_ext. intros l _. unfold eterm. destruct (d k l) as [[A B]|]; [|reflexivity].
      destruct (Req_EM_T A 0); [reflexivity|]. f_equal. f_equal. ring.
    - exfalso. destruct S1 as [K _]. destruct S2 as (k & l & Hk & Hl & E). refine (K k l _ _ E); (eapply Permutation_in; [apply Permutation_sym; exact P | assumption]).
    - exfalso. destruct S2 as [K _]. destruct S1 as (k & l & Hk & Hl & E). refine (K k l _ _ E); (eapply Permutation_in; [exact P | assumption]).
    - reflexivity. }
  rewrite ES. destruct (ppr_sum d T (gfrac g2) (gfrac g1) (gunion g2 g1)) as [s|]; [|reflexivity].
  rewrite (Rmult_comm (ppr_a T Tc2 Pc2 w2)), (Rmult_comm (ppr_b Tc2 Pc2)).
  replace ((sqrt (ppr_a T Tc2 Pc2 w2) / ppr_b Tc2 Pc2 - sqrt (ppr_a T Tc1 Pc1 w1) / ppr_b Tc1 Pc1) ^ 2)
    with ((sqrt (ppr_a T Tc1 Pc1 w1) / ppr_b Tc1 Pc1 - sqrt (ppr_a T Tc2 Pc2 w2) / ppr_b Tc2 Pc2) ^ 2) by ring.
  reflexivity.
Qed.

(* Two molecules with the same fractions of groups and the same critical constants do not interact specially. *)
Theorem C68_ppr_same : forall (d : itable) (T : R) (c1 c2 : pcomp) (k : R),
  NoDup (map fst (pc_groups c1)) -> NoDup (map fst (pc_groups c2)) ->
  (forall g, fraction (pc_groups c1) g = fraction (pc_groups c2) g) ->
  pc_Tc c1 = pc_Tc c2 -> pc_Pc c1 = pc_Pc c2 -> pc_omega c1 = pc_omega c2 ->
  pair_kij d T c1 c2 = KVal k -> k = 0.
Proof.
  intros d T [g1 Tc1 Pc1 w1] [g2 Tc2 Pc2 w2] k N1 N2 F E1 E2 E3. cbn [pc_groups pc_Tc pc_Pc pc_omega] in *. subst Tc2 Pc2 w2.
  unfold pair_kij. cbn [pc_groups pc_Tc pc_Pc pc_omega]. unfold PPR78_kij. cbv zeta.
  match goal with |- (if ?b then _ else _) = _ -> _ => destruct b; [discriminate|] end.
  pose proof (ppr_sum_char d T g1 g2 (gunion g1 g2) N1 N2) as S.
  destruct (ppr_sum d T (gfrac g1) (gfrac g2) (gunion g1 g2)) as [s|]; [|discriminate].
  destruct S as [_ Es].
  assert (s = 0).
  { rewrite Es. apply lsum_zero. intros a _. apply lsum_zero. intros b _. unfold eterm.
    destruct (d a b) as [[A B]|]; [|reflexivity]. destruct (Req_EM_T A 0); [reflexivity|]. rewrite (F a). ring. }
  subst s. match goal with |- (if ?b then _ else _) = _ -> _ => destruct b; [discriminate|] end.
  intros Hk. injection Hk as <-. rewrite H. unfold Rdiv. ring.
Qed.

(* ------------------------------------------------------------------ PPR78: the matrix *)
Lemma kijs_pairs : forall d T cs dflt (L : list (nat * nat)) m0 m,
  (forall c, In c cs -> NoDup (map fst (pc_groups c))) -> NoDup (map fst (pc_groups dflt)) ->
  fold_left (fun r ij => kijs_inner d T cs dflt (fst ij) r (snd ij)) L (KVal m0) = KVal m ->
  forall a b,
    (In (a, b) L \/ In (b, a) L -> pair_kij d T (nth a cs dflt) (nth b cs dflt) = KVal (m a b)) /\
    (~ In (a, b) L -> ~ In (b, a) L -> m a b = m0 a b).
Proof.
  intros d T cs dflt L. induction L as [|[i j] L IH]; intros m0 m HN HD H a b; cbn [fold_left] in H.
  - injection H as <-. split; [intros [[] | []] | reflexivity].
  - unfold kijs_inner at 2 in H. cbn [fst snd] in H.
    assert (E : forall L (e : kres (nat -> nat -> R)), (forall m, e <> KVal m) ->
              fold_left (fun r ij => kijs_inner d T cs dflt (fst ij) r (snd ij)) L e = e).
    { induction L0 as [|ij L0 IHL]; intros e He; cbn [fold_left]; [reflexivity|].
      assert (Q : kijs_inner d T cs dflt (fst ij) e (snd ij) = e) by (destruct e; [exfalso; eapply He; reflexivity | | |]; reflexivity).
      rewrite Q. apply IHL. exact He. }
    destruct (pair_kij d T (nth i cs dflt) (nth j cs dflt)) as [v| | |] eqn:Ev;
      try (rewrite E in H by discriminate; discriminate).
    destruct (IH _ _ HN HD H a b) as [I1 I2]. cbn [In].
    destruct (in_dec (fun p q : nat * nat => ltac:(decide equality; apply Nat.eq_dec)) (a, b) L) as [Y1|Y1];
      [split; [auto | tauto]|].
    destruct (in_dec (fun p q : nat * nat => ltac:(decide equality; apply Nat.eq_dec)) (b, a) L) as [Y2|Y2];
      [split; [auto | tauto]|].
    rewrite (I2 Y1 Y2). unfold mset. split.
    + assert (ND : forall k, NoDup (map fst (pc_groups (nth k cs dflt)))).
      { intros k. destruct (nth_in_or_default k cs dflt) as [Hk | ->]; auto. }
      intros [[Hh | Hh] | [Hh | Hh]]; try contradiction; injection Hh as -> ->; rewrite !Nat.eqb_refl; cbn [andb].
      * destruct ((a =? b)%nat && (b =? a)%nat); exact Ev.
      * rewrite C68_ppr_swap by auto. exact Ev.
    + intros D1 D2.
      assert (X1 : ~ (a = i /\ b = j)) by (intros [-> ->]; apply D1; auto).
      assert (X2 : ~ (a = j /\ b = i)) by (intros [-> ->]; apply D2; auto).
      destruct (Nat.eqb_spec a j), (Nat.eqb_spec b i), (Nat.eqb_spec a i), (Nat.eqb_spec b j); cbn [andb];
        try reflexivity; exfalso; tauto.
Qed.

(* The matrix returned is symmetric, has zeros on the diagonal, and holds at (i, j) and at (j, i) the parameter of
   the two components. *)
Theorem C68_ppr_matrix : forall (d : itable) (T : R) (cs : list pcomp) (dflt : pcomp) (m : nat -> nat -> R),
  (forall c, In c cs -> NoDup (map fst (pc_groups c))) -> NoDup (map fst (pc_groups dflt)) ->
  PPR78_kijs d T cs dflt = KVal m ->
  forall i j, (i < List.length cs)%nat -> (j < List.length cs)%nat ->
    m i j = m j i /\ m i i = 0 /\ (i <> j -> pair_kij d T (nth i cs dflt) (nth j cs dflt) = KVal (m i j)).
Proof.
  intros d T cs dflt m HN HD H i j Hi Hj. unfold PPR78_kijs in H. set (n := List.length cs) in *.
  set (L := flat_map (fun i => map (fun j => (i, j)) (seq (i + 1) (n - (i + 1)))) (seq 0 n)).
  assert (F : forall is r, fold_left (fun r i => fold_left (kijs_inner d T cs dflt i) (seq (i + 1) (n - (i + 1))) r) is r =
    fold_left (fun r ij => kijs_inner d T cs dflt (fst ij) r (snd ij)) (flat_map (fun i => map (fun j => (i, j)) (seq (i + 1) (n - (i + 1)))) is) r).
  { assert (G : forall k ls b, fold_left (kijs_inner d T cs dflt k) ls b =
      fold_left (fun r ij => kijs_inner d T cs dflt (fst ij) r (snd ij)) (map (fun y => (k, y)) ls) b)
      by (intros k; induction ls as [|l ls IH]; intros b; cbn [fold_left map fst snd]; [reflexivity | apply IH]).
    induction is as [|k is IH]; intros r; cbn [fold_left flat_map]; [reflexivity|].
    rewrite fold_left_app, IH, G. reflexivity. }
  cbv zeta in H. rewrite F in H. fold L in H.
  pose proof (kijs_pairs d T cs dflt L _ m HN HD H) as K.
  assert (ML : forall a b, In (a, b) L <-> (a < b < n)%nat).
  { intros a b. unfold L. rewrite in_flat_map. split.
    - intros (x & Hx & Hin). apply in_map_iff in Hin. destruct Hin as (y & E & Hy). injection E as -> ->.
      apply in_seq in Hx. apply in_seq in Hy. lia.
    - intros [H1 H2]. exists a. split; [apply in_seq; lia|]. apply in_map_iff. exists b. split; [reflexivity|]. apply in_seq. lia. }
  assert (ND : forall k, NoDup (map fst (pc_groups (nth k cs dflt)))).
  { intros k. destruct (nth_in_or_default k cs dflt) as [Hk | ->]; auto. }
  assert (V : forall a b, (a < n)%nat -> (b < n)%nat -> a <> b -> pair_kij d T (nth a cs dflt) (nth b cs dflt) = KVal (m a b)).
  { intros a b Ha Hb Hab. apply K. rewrite !ML. lia. }
  assert (D : forall a, m a a = 0).
  { intros a. destruct (K a a) as [_ K2]. apply K2; rewrite ML; lia. }
  splits; auto. destruct (Nat.eq_dec i j) as [-> | N]; [reflexivity|].
  pose proof (V i j Hi Hj N) as V1. pose proof (V j i Hj Hi (not_eq_sym N)) as V2.
  rewrite C68_ppr_swap in V1 by auto. rewrite V1 in V2. injection V2 as ->. reflexivity.
Qed.

(* The version chooses the table; any other name is refused. *)
Theorem C68_ppr_version : forall (d1 d2 : itable) (version : string) (T : R) (g1 g2 : list (nat * R)) (Tc1 Pc1 w1 Tc2 Pc2 w2 : R),
  PPR78_kij_version d1 d2 "original" T g1 g2 Tc1 Pc1 w1 Tc2 Pc2 w2 = PPR78_kij d1 T g1 g2 Tc1 Pc1 w1 Tc2 Pc2 w2 /\
  PPR78_kij_version d1 d2 "extended" T g1 g2 Tc1 Pc1 w1 Tc2 Pc2 w2 = PPR78_kij d2 T g1 g2 Tc1 Pc1 w1 Tc2 Pc2 w2 /\
  (version <> "original"%string -> version <> "extended"%string ->
   PPR78_kij_version d1 d2 version T g1 g2 Tc1 Pc1 w1 Tc2 Pc2 w2 = KValueError).
Proof.
  intros. unfold PPR78_kij_version. splits; try reflexivity. intros H1 H2.
  apply String.eqb_neq in H1. apply String.eqb_neq in H2. rewrite H1, H2. reflexivity.
Qed.

(* Finding: a pair of groups for which the source says "not available" (PPR78: CO2 with SH, N2 with SH) is entered
   with zeros, so a parameter is returned for it as if the groups did not interact. *)
Theorem C68_ppr_not_available_refuted : forall (d : itable) (groups : list nat) (k l : nat),
  In k groups -> In l groups -> d k l = None -> d l k = None -> symmetrise groups d k l = Some (0, 0).
Proof. intros d groups k l Hk Hl E1 E2. destruct (C68_ppr_table groups d k l) as [H _]. rewrite (H Hk Hl), E1, E2. reflexivity. Qed.

(* Examples: propane in the table of the package; a methane and ethane pair with one table entry. *)
Example C68_joback_hypotheses_met :
  exists v, jb_Tb JOBACK_GROUPS [(1%nat, 2%nat); (2%nat, 1%nat)] = Some v /\ v = 268.24.
Proof.
  exists 268.24. split; [|reflexivity]. apply C68_joback_linear.
  exists (INR 2 * (1179 / 50) + (INR 1 * (572 / 25) + 0)). split.
  - constructor; [reflexivity|]. constructor; [reflexivity|]. constructor.
  - cbn [INR]. lra.
Qed.

Definition demo_table : itable := symmetrise [1%nat; 2%nat] (fun k l => if (k =? 1)%nat && (l =? 2)%nat then Some (74.81, 165.7) else None).
Definition demo_c1 : pcomp := PC [(1%nat, 2)] 305.3 4872000 0.099.
Definition demo_c2 : pcomp := PC [(2%nat, 1)] 190.6 4599000 0.012.

Example C68_ppr_hypotheses_met :
  (exists k, pair_kij demo_table 300 demo_c1 demo_c2 = KVal k) /\
  (exists m, PPR78_kijs demo_table 300 [demo_c1; demo_c2] demo_c1 = KVal m).
Proof.
  assert (P : exists k, pair_kij demo_table 300 demo_c1 demo_c2 = KVal k).
  { unfold pair_kij, demo_c1, demo_c2. cbn [pc_groups pc_Tc pc_Pc pc_omega].
    assert (ND : forall x : nat, NoDup [x]) by (intros; constructor; [intros [] | constructor]).
    assert (A : forall Tc Pc w, 0 < Tc -> 0 < Pc -> 0 <= w <= 0.491 -> 300 < 1.6 * Tc -> a_PR78 300 Tc Pc w <> 0).
    { intros Tc Pc w HT HP Hw Hr. unfold a_PR78. cbv zeta. destruct (Rle_dec w 0.491); [|lra].
      assert (S : sqrt (300 / Tc) < 1.3).
      { replace 1.3 with (sqrt (1.3 * 1.3)) by (apply sqrt_square; lra). apply sqrt_lt_1.
        - apply Rlt_le. apply Rdiv_lt_0_compat; lra.
        - lra.
        - apply Rmult_lt_reg_r with Tc; [exact HT|]. unfold Rdiv. rewrite Rmult_assoc, Rinv_l, Rmult_1_r by lra. lra. }
      assert (M : 0 <= 0.37464 + 1.54226 * w - 0.26992 * w ^ 2 <= 1.2) by (cbn [pow]; nra).
      set (mm := 0.37464 + 1.54226 * w - 0.26992 * w ^ 2) in *. clearbody mm.
      assert (Q : 0 < 1 + mm * (1 - sqrt (300 / Tc))) by nra.
      pose proof Rgas_pos as RG. apply Rgt_not_eq. apply Rmult_lt_0_compat.
      - unfold Rdiv. apply Rmult_lt_0_compat; [|apply Rinv_0_lt_compat; exact HP].
        apply Rmult_lt_0_compat; [|apply pow_lt; exact HT]. apply Rmult_lt_0_compat; [lra | apply pow_lt; exact RG].
      - apply pow_lt. exact Q. }
    apply (C68_ppr_equation demo_table 300 [(1%nat, 2)] [(2%nat, 1)] 305.3 4872000 0.099 190.6 4599000 0.012 [1%nat; 2%nat]); try lra.
    - apply ND.
    - apply ND.
    - constructor; [intros [H | []]; discriminate | apply ND].
    - intros g. cbn. tauto.
    - splits.
      + right. unfold lsum. cbn. lra.
      + right. unfold lsum. cbn. lra.
      + apply A; lra.
      + apply A; lra.
      + intros k l Hk Hl. unfold demo_table. destruct (C68_ppr_table [1%nat; 2%nat] (fun k l => if (k =? 1)%nat && (l =? 2)%nat then Some (74.81, 165.7) else None) k l) as [H _].
        rewrite (H Hk Hl). discriminate. }
  split; [exact P|]. destruct P as [k Hk].
  exists (mset (mset (fun _ _ => 0) 0 1 k) 1 0 k). unfold PPR78_kijs. cbn [List.length seq fold_left Nat.add Nat.sub].
  unfold kijs_inner. cbn [nth]. rewrite Hk. reflexivity.
Qed.
