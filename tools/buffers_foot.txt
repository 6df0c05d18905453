(* thermo/eos_mix_methods.py line 1284: lnphis.  When the attraction term vanishes only the first entry is written before returning. *)
Theorem C27_PR_lnphis (T P Z b a_alpha : R) (bs rows : nat -> R) (N : nat) (lnphis lnphis' : nat -> R) : T <> 0 -> P <> 0 -> b <> 0 -> a_alpha <> 0 ->
  forall i, (i < N)%nat -> PR_lnphis T P Z b a_alpha bs rows N lnphis i = PR_lnphis T P Z b a_alpha bs rows N lnphis' i.
Proof.
  intros HT HP Hb Ha i Hi. unfold PR_lnphis. cbv zeta.
  rewrite Reqb_false. 2: { pose proof Rgas_pos. pose proof (sqrt_lt_R0 2 ltac:(lra)) as S2. assert (b * (P * (1 / T)) * (1 / Rgas) <> 0) as Q. { apply Rmult_integral_contrapositive_currified. apply Rmult_integral_contrapositive_currified; auto. apply Rmult_integral_contrapositive_currified; auto. unfold Rdiv. rewrite Rmult_1_l. now apply Rinv_neq_0_compat. unfold Rdiv. rewrite Rmult_1_l. apply Rinv_neq_0_compat. lra. }
    intros E. apply Rmult_integral in E. destruct E as [|E]; [contradiction|]. set (q := b * (P * (1 / T)) * (1 / Rgas)) in *. assert (2 * (q * sqrt 2) = 0) as E2 by lra. apply Rmult_integral in E2. destruct E2 as [|E2]; [lra|]. apply Rmult_integral in E2. destruct E2; [contradiction|lra]. }
  cbv [negb]. rewrite !(loop_upd_lt N) by assumption. reflexivity.
Qed.
Theorem C27_PR_lnphis_refuted : exists T P Z b a_alpha bs rows lnphis lnphis', 0 < T /\ 0 < P /\ 0 < b /\ 0 < Z /\ PR_lnphis T P Z b a_alpha bs rows 2 lnphis 1%nat <> PR_lnphis T P Z b a_alpha bs rows 2 lnphis' 1%nat.
Proof.
  exists 1, 1, 1, 1, 0, (fun _ => 1), (fun _ => 0), (fun _ => 0), (fun _ => 1). splits; try lra. unfold PR_lnphis. cbv zeta. rewrite Reqb_true by ring. cbv [negb]. unfold upd. cbn [Nat.eqb]. lra.
Qed.
(* wilson_gammas (thermo/wilson.py line 190) adds to the caller's output list *)
Theorem C27_wilson_gammas_refuted : exists xs lambdas inv vec0 gammas, (forall i, xs i = 1) /\ wilson_gammas xs 1 lambdas inv gammas vec0 0%nat <> wilson_gammas xs 1 lambdas inv (fun _ => 0) vec0 0%nat.
Proof.
  exists (fun _ => 1), (fun _ _ => 1), (fun _ => 1), (fun _ => 0), (fun _ => 1). split; [reflexivity|]. unfold wilson_gammas. cbv zeta. cbn [loop]. unfold upd. cbn [Nat.eqb]. rewrite !Rmult_1_r. intros H. apply exp_inv in H. lra.
Qed.
(* the two runs compared above really start from different lists and do work *)
Example C27_hypotheses_met : exists xs GE, (1 < 2)%nat /\ gibbs_excess_gammas xs (fun _ => 0) GE 300 (fun _ => 5) 2 1%nat = gibbs_excess_gammas xs (fun _ => 0) GE 300 (fun _ => -7) 2 1%nat /\ gibbs_excess_gammas xs (fun _ => 0) GE 300 (fun _ => 5) 2 1%nat <> 5.
Proof.
  exists (fun _ => 1 / 2), 0. splits; [lia| apply C27_gibbs_excess_gammas; lia |]. unfold gibbs_excess_gammas. cbv zeta. cbn [loop]. unfold upd. cbn [Nat.eqb].
  match goal with |- exp ?a <> _ => replace a with 0 by (field; pose proof Rgas_pos; lra) end. rewrite exp_0. lra.
Qed.
