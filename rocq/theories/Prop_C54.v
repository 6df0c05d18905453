(* C54: the two phase flash at T and P. *)
From Coq Require Import Reals Lra Lia List Bool Arith FunctionalExtensionality.
From Verif Require Import Base BaseFacts Model_ss Model_stability Model_flashTP Spec_split SsFacts Prop_C52 Prop_C53 Prop_C53_test.
Import ListNotations.
Open Scope R_scope.

(* ---- the specification ---- *)
(* p is the model m evaluated at T, P and composition x *)
Definition evaluated (m : sphase) (T P : R) (x : comp) (p : sphase) : Prop := s_T p = T /\ s_P p = P /\ s_zs p = x /\ s_lnphis p = s_lnphis m.
(* two phases of fractions b and 1 - b, compositions y and x, add up to the feed *)
Record two_phases (N : nat) (T P : R) (z : comp) (first second : sphase) (p1 p2 : sphase) (betas : list R) : Prop := {
  tp_betas : exists b, 0 <= b <= 1 /\ betas = [b; 1 - b] /\ split_balance N z b (s_zs p2) (s_zs p1);
  tp_first : evaluated first T P (s_zs p1) p1;
  tp_second : evaluated second T P (s_zs p2) p2;
  tp_comp1 : composition N (s_zs p1);
  tp_comp2 : composition N (s_zs p2) }.
(* component fugacities agree within a relative d *)
Definition same_fugacities (N : nat) (T P : R) (a b : sphase) (d : R) : Prop :=
  forall i, (i < N)%nat -> s_zs b i <> 0 -> Rabs (fugacity_mismatch (s_lnphis a T P) (s_lnphis b T P) (s_zs a) (s_zs b) i) < d.

Lemma evaluated_phase_at m T P x : evaluated m T P x (phase_at m T P x).
Proof. unfold evaluated, phase_at. cbn. auto. Qed.
Lemma ss_never_none N inner fn T P z x0 y0 l g V0 m tol triv x y l' g' k e : solves N inner -> flasher_ss_2P N inner fn T P z x0 y0 l g V0 m tol triv <> Returns None x y l' g' k e.
Proof. intros Sol H. destruct (C52_flasher_returned _ _ _ _ _ _ _ _ _ _ _ _ _ _ _ _ _ _ _ _ _ Sol H) as [_ [_ [_ [_ [_ [_ [_ [[v [Q _]] _]]]]]]]]. discriminate. Qed.

(* what the successive substitution hands over, in both flash_2P calls *)
Definition handed (N : nat) (T P : R) (z : comp) (m o : sphase) (V : R) (l g : sphase) : Prop :=
  composition N (s_zs l) /\ composition N (s_zs g) /\ evaluated m T P (s_zs l) l /\ evaluated o T P (s_zs g) g /\
  (0 <= V <= 1 -> split_balance N z V (s_zs l) (s_zs g)).
Lemma handed_intro N inner fn T P z x0 y0 m o V0 mi tol triv V x y l g k e : solves N inner -> (forall i, (i < N)%nat -> 0 <= z i) ->
  flasher_ss_2P N inner fn T P z x0 y0 m o V0 mi tol triv = Returns (Some V) x y l g k e -> handed N T P z m o V l g /\ (k < mi)%nat /\ e < tol /\ l = phase_at m T P x /\ g = phase_at o T P y /\ composition N x /\ composition N y.
Proof.
  intros Sol Z H. destruct (C52_flasher_returned _ _ _ _ _ _ _ _ _ _ _ _ _ _ _ _ _ _ _ _ _ Sol H) as [A1 [A2 [A3 [A4 [A5 [A6 [A7 [[v [Q A8]] A9]]]]]]]].
  injection Q; intro; subst v. subst l g. splits; auto. unfold handed. cbn [phase_at s_zs]. splits; auto; apply evaluated_phase_at.
Qed.
Lemma handed_swap N T P z m m' o o' V l g : s_lnphis m' = s_lnphis m -> s_lnphis o' = s_lnphis o -> handed N T P z m o V l g -> handed N T P z m' o' V l g.
Proof. intros E1 E2 [A [B [C [D F]]]]. unfold handed, evaluated in *. rewrite E1, E2. splits; tauto. Qed.

(* flash_2P: one phase, the one of lower Gibbs energy, or the two phases of a split *)
Definition flash_2P_result (N : nat) (T P : R) (z : comp) (LL ml : bool) (gas liquid : sphase) (o : flash_outcome) : Prop :=
  match o with
  | Raises Stability_error => False
  | Raises (SS_error _) => True
  | Flashed r =>
      (r_betas r = [1] /\ ((ml = true /\ r_gas r = None /\ r_liquids r = [liquid]) \/ (ml = false /\ r_gas r = Some gas /\ r_liquids r = []))) \/
      (LL = false /\ exists l g, r_gas r = Some g /\ r_liquids r = [l] /\ two_phases N T P z gas liquid g l (r_betas r)) \/
      (LL = true /\ exists a b, r_gas r = None /\ r_liquids r = [a; b] /\ two_phases N T P z (if ml then gas else liquid) (if ml then liquid else gas) a b (r_betas r))
  end.
Lemma split_ok N T P z LL (ml : bool) gas liquid V l g k e : 0 <= V <= 1 -> handed N T P z (if ml then liquid else gas) (if ml then gas else liquid) V l g ->
  flash_2P_result N T P z LL ml gas liquid (Flashed (split_result LL ml V l g k e)).
Proof.
  intros HV [A [B [C [D F]]]]. specialize (F HV). unfold split_result, flash_2P_result. destruct LL; cbn.
  - right; right. split; [auto|]. exists g, l. splits; auto. constructor; auto. exists V. splits; auto; lra.
  - right; left. split; [auto|]. destruct ml; cbn.
    + exists l, g. splits; auto. constructor; auto. exists V. splits; auto; lra.
    + exists g, l. splits; auto. constructor; auto. exists (1 - V). splits; try lra; auto. intros i I. rewrite (F i I). ring.
Qed.
Lemma one_ok N T P z LL ml gas liquid k e : flash_2P_result N T P z LL ml gas liquid (Flashed (one_phase liquid gas ml k e)).
Proof. left. unfold one_phase. destruct ml; cbn; auto. Qed.
Theorem C54_flash_2P : forall N inner f T P z xt yt ml gas liquid V0 LL, solves N inner -> (forall i, (i < N)%nat -> 0 <= z i) -> 0 <= v_polish_VF f ->
  flash_2P_result N T P z LL ml gas liquid (flash_2P N inner f T P z xt yt ml gas liquid V0 LL).
Proof.
  intros N inner f T P z xt yt ml gas liquid V0 LL Sol Z Pv. unfold flash_2P.
  destruct (flasher_ss_2P N inner (v_functional f) T P z xt yt _ _ V0 (v_maxiter f) (v_tol f) (v_trivial f)) as [[V|] x y l g k e|er] eqn:E.
  - destruct (handed_intro _ _ _ _ _ _ _ _ _ _ _ _ _ _ _ _ _ _ _ _ _ Sol Z E) as [H [_ [_ [L [G _]]]]]. cbv zeta.
    assert (CHK : forall V l g k e, handed N T P z (if ml then liquid else gas) (if ml then gas else liquid) V l g ->
      flash_2P_result N T P z LL ml gas liquid (if (Rltb V 0 || Rltb 1 V)%bool then Flashed (one_phase liquid gas ml k e) else Flashed (split_result LL ml V l g k e))).
    { intros V' l' g' k' e' H'. destruct (Rltb_spec V' 0); [apply one_ok|]. destruct (Rltb_spec 1 V'); cbn [orb]; [apply one_ok|]. apply split_ok; [lra|auto]. }
    destruct (Rltb_spec V (v_polish_VF f)) as [L1|L1]; destruct (Rltb_spec (1 - v_polish_VF f) V) as [L2|L2]; cbn [orb]; [| | |apply split_ok; [lra|auto]];
    (destruct (_ && _)%bool; [|apply CHK; auto];
     destruct (flasher_ss_2P N inner (v_functional f) T P z x y l g (Some V) (v_polish_maxiter f) (v_polish_tol f) (v_trivial f)) as [[V'|] x' y' l' g' k' e'|er'] eqn:E';
     [apply CHK; destruct (handed_intro _ _ _ _ _ _ _ _ _ _ _ _ _ _ _ _ _ _ _ _ _ Sol Z E') as [H' _]; revert H'; apply handed_swap; subst l g; reflexivity
     |exfalso; exact (ss_never_none _ _ _ _ _ _ _ _ _ _ _ _ _ _ _ _ _ _ _ _ Sol E')|exact I]).
  - exfalso. exact (ss_never_none _ _ _ _ _ _ _ _ _ _ _ _ _ _ _ _ _ _ _ _ Sol E).
  - destruct er; try exact I. apply one_ok.
Qed.

(* ---- the flash ---- *)
(* the phase of lower Gibbs energy at T, P and the feed; at equal energies the liquid if it calls itself one *)
Definition lower_G (f : vl) (T P : R) (z : comp) (is_liquid : bool) : Prop :=
  let gl := v_G f (phase_at (v_liquid f) T P z) in let gg := v_G f (phase_at (v_gas f) T P z) in
  if is_liquid then gl < gg \/ (gl = gg /\ v_named_l f (phase_at (v_liquid f) T P z) = true)
  else gg < gl \/ (gl = gg /\ v_named_l f (phase_at (v_liquid f) T P z) = false).
Inductive flash_answer (N : nat) (f : vl) (T P : R) (z : comp) : flash_sln -> Prop :=
| Liquid_only r : r_gas r = None -> r_liquids r = [phase_at (v_liquid f) T P z] -> r_betas r = [1] -> lower_G f T P z true -> flash_answer N f T P z r
| Gas_only r : r_gas r = Some (phase_at (v_gas f) T P z) -> r_liquids r = [] -> r_betas r = [1] -> lower_G f T P z false -> flash_answer N f T P z r
| Gas_and_liquid r g l : r_gas r = Some g -> r_liquids r = [l] -> two_phases N T P z (v_gas f) (v_liquid f) g l (r_betas r) -> flash_answer N f T P z r.

Lemma min_is_liquid_spec f T P z : lower_G f T P z (min_is_liquid f (phase_at (v_liquid f) T P z) (phase_at (v_gas f) T P z)).
Proof.
  unfold min_is_liquid, lower_G. destruct (Rltb_spec (v_G f (phase_at (v_liquid f) T P z)) (v_G f (phase_at (v_gas f) T P z))); [auto|].
  unfold Reqb. destruct (Req_EM_T _ _) as [E|E]; [|left; lra]. destruct (v_named_l f _); right; auto.
Qed.
Lemma verdict_shape N o z trials : o_all_solutions o = false -> o_lowest_dG o = false -> o_handle_iffy o = false ->
  match stability_test_Michelsen N o z None trials with Verdict true None | Verdict false (Some _) => True | _ => False end.
Proof.
  intros A B C. rewrite test_unfold. cbv zeta. rewrite A, B, C. change (known_phases z None) with (@cons vec z (@nil vec)).
  assert (X : [z] <> []) by discriminate.
  (* the state after any number of trials *)
  assert (G : forall trials i st, z_name_error st = false -> (z_always st = true -> z_stable st = true) ->
    (z_always st = false -> o_highest_comp_diff o = true -> z_far_off st = false -> z_far st <> None) -> 0 <= z_far_max st -> (z_far_max st = 0 \/ z_far st <> None) ->
    (z_always st = false -> (o_highest_comp_diff o && negb (z_far_off st))%bool = false -> z_last st <> None) ->
    let r := stab_loop N o z [z] i trials st in z_name_error r = false /\ (z_always r = true -> z_stable r = true) /\
    (z_always r = false -> o_highest_comp_diff o = true -> z_far_off r = false -> z_far r <> None) /\
    (z_always r = false -> (o_highest_comp_diff o && negb (z_far_off r))%bool = false -> z_last r <> None)).
  { clear trials. induction trials as [|[t|] l IH]; intros i st H1 H2 H3 H4 H5 H6; [cbn; splits; auto| |apply IH; auto].
    rewrite stab_loop_cons. destruct (checks N z [z] t) as [d|] eqn:Ck; [|apply IH; auto]. cbv zeta.
    destruct (outside t) eqn:O.
    { apply IH; unfold noted; cbn; rewrite ?O; auto. intros _ _. discriminate. }
    destruct (o_highest_comp_diff o) eqn:Hi.
    - cbn [length Nat.eqb]. change (z_far_max (noted N o i t st)) with (z_far_max st). pose proof (checks_positive N z [z] t d X Ck) as Dp.
      destruct (Rltb_spec (z_far_max st) d) as [L|L].
      + destruct (match o_min_comp_diff o with Some m => Rltb m d | None => false end && negb (o_all_solutions o))%bool; [cbn; splits; auto; rewrite ?O; try discriminate|]. apply IH; cbn; auto; try discriminate; try lra; [rewrite O; discriminate|]. right; discriminate.
      + assert (FN : z_far st <> None) by (destruct H5 as [H5|H5]; [lra|auto]). apply IH; cbn; auto; rewrite ?O; auto; discriminate.
    - rewrite B, C, A. cbn. splits; auto; rewrite ?O; try discriminate. }
  specialize (G trials 0%nat stab_start). cbv zeta in G.
  destruct G as [G1 [G2 [G3 G4]]]; [reflexivity|reflexivity|discriminate|cbn; lra|left; reflexivity|discriminate|].
  rewrite G1. destruct (z_always _) eqn:Al; [rewrite (G2 eq_refl); exact I|].
  destruct (o_highest_comp_diff o && negb (z_far_off _))%bool eqn:F; cbn.
  - apply andb_true_iff in F. destruct F as [F1 F2]. apply negb_true_iff in F2. specialize (G3 eq_refl F1 F2). destruct (z_far _); [exact I|contradiction].
  - specialize (G4 eq_refl eq_refl). destruct (z_last _); [exact I|contradiction].
Qed.
Lemma cold_answer N inner f T P z : solves N inner -> (forall i, (i < N)%nat -> 0 <= z i) -> 0 <= v_polish_VF f ->
  match flash_TP_stability_test N inner f T P z (v_liquid f) (v_gas f) false with
  | Flashed r => flash_answer N f T P z r | Raises (SS_error _) => True | Raises Stability_error => False end.
Proof.
  intros Sol Z Pv. unfold flash_TP_stability_test. change (to_TP_zs (v_liquid f) T P z) with (phase_at (v_liquid f) T P z). change (to_TP_zs (v_gas f) T P z) with (phase_at (v_gas f) T P z).
  cbv zeta. pose proof (min_is_liquid_spec f T P z) as M. set (ml := min_is_liquid f _ _) in *.
  assert (FIN : forall o, flash_2P_result N T P z false ml (phase_at (v_gas f) T P z) (phase_at (v_liquid f) T P z) o ->
    match o with Flashed r => flash_answer N f T P z r | Raises (SS_error _) => True | Raises Stability_error => False end).
  { intros [r|e] H; [|destruct e; exact H]. cbn in H. destruct H as [[B [[E [G L]]|[E [G L]]]]|[[_ [l [g [G [L T2]]]]]|[Q _]]]; [| | |discriminate].
    - rewrite E in M. apply Liquid_only; auto.
    - rewrite E in M. apply Gas_only; auto.
    - apply (Gas_and_liquid N f T P z r g l); auto. destruct T2 as [b e1 e2 c1 c2]. constructor; auto. }
  match goal with |- context [stability N inner f T P z ?a ?b] => pose proof (verdict_shape N {| o_skip := None; o_handle_iffy := false; o_lowest_dG := false; o_highest_comp_diff := v_stab_far f; o_min_comp_diff := v_stab_min f; o_all_solutions := false |} z
    (map (fun w => stability_iteration_Michelsen N inner P (s_zs a) (v_fugacities f a) w (v_lnphi_test f b) (v_stab_maxiter f) (v_stab_xtol f)) (v_guesses f T P z)) eq_refl eq_refl eq_refl) as VS;
    change (stability_test_Michelsen N _ z None _) with (stability N inner f T P z a b) in VS; destruct (stability N inner f T P z a b) as [[|] [s|]| | |]; try contradiction end.
  - apply (FIN (Flashed (one_phase (phase_at (v_liquid f) T P z) (phase_at (v_gas f) T P z) ml 0 0))). apply one_ok.
  - apply FIN. apply C54_flash_2P; auto.
Qed.
(* Whatever is returned is one phase at T, P and the feed (the one of lower Gibbs energy), or a gas and a liquid at T, P whose fractions
   are in [0, 1], add to one and, with the phases' compositions, give the feed. Only the errors of the substitutions can be raised. *)
Theorem C54_answer : forall N inner f T P z hot, solves N inner -> (forall i, (i < N)%nat -> 0 <= z i) -> 0 <= v_polish_VF f ->
  match flash_TPV N inner f T P z hot with
  | Flashed r => flash_answer N f T P z r
  | Raises (SS_error _) => True
  | Raises Stability_error => False
  end.
Proof.
  intros N inner f T P z hot Sol Z Pv. pose proof (cold_answer N inner f T P z Sol Z Pv) as C. unfold flash_TPV. destruct hot as [[[V0 x0] y0]|]; [|exact C].
  destruct (flasher_ss_2P N inner (v_functional f) T P z x0 y0 (v_liquid f) (v_gas f) V0 (v_maxiter f) (v_tol f) (v_trivial f)) as [[V|] x y l g k e|er] eqn:E; [|exact C|exact C].
  destruct (Rleb_spec 0 V); [|exact C]. destruct (Rleb_spec V 1); cbn [andb]; [|exact C].
  destruct (handed_intro _ _ _ _ _ _ _ _ _ _ _ _ _ _ _ _ _ _ _ _ _ Sol Z E) as [[A [B [D [F G]]]] _].
  apply (Gas_and_liquid N f T P z _ g l); cbn; auto. constructor; auto. exists V. splits; auto; lra.
Qed.

(* ---- the fugacities of two returned phases agree, unless the substitution accepted its guess in the first iteration ---- *)
Theorem C54_equilibrium : forall N inner f T P z hot r g l, solves N inner -> v_polish_tol f <= v_tol f ->
  flash_TPV N inner f T P z hot = Flashed r -> r_gas r = Some g -> r_liquids r = [l] -> (1 <= r_iterations r)%nat ->
  same_fugacities N T P l g (sqrt (v_tol f)) \/ same_fugacities N T P g l (sqrt (v_tol f)).
Proof.
  intros N inner f T P z hot r g l Sol Tol H G L K.
  assert (SS : forall x0 y0 m o V0 mi tol V x y l' g' k e, tol <= v_tol f -> flasher_ss_2P N inner (v_functional f) T P z x0 y0 m o V0 mi tol (v_trivial f) = Returns V x y l' g' k e -> (1 <= k)%nat ->
    same_fugacities N T P l' g' (sqrt (v_tol f)) /\ s_lnphis l' = s_lnphis m /\ s_lnphis g' = s_lnphis o).
  { intros x0 y0 m o V0 mi tol V x y l' g' k e TT E K'. destruct (C52_flasher_returned _ _ _ _ _ _ _ _ _ _ _ _ _ _ _ _ _ _ _ _ _ Sol E) as [_ [_ [_ [_ [_ [A6 [A7 [_ A9]]]]]]]].
    subst l' g'. split; [|split; reflexivity]. intros i I D. cbn in D |- *. apply Rlt_le_trans with (sqrt tol); [apply A9; auto|apply sqrt_le_1_alt; auto]. }
  assert (COLD : flash_TP_stability_test N inner f T P z (v_liquid f) (v_gas f) false = Flashed r -> same_fugacities N T P l g (sqrt (v_tol f)) \/ same_fugacities N T P g l (sqrt (v_tol f))).
  { clear H. unfold flash_TP_stability_test. cbv zeta. set (ml := min_is_liquid f _ _).
    assert (ONE : forall k e a b, Flashed (one_phase a b ml k e) = Flashed r -> same_fugacities N T P l g (sqrt (v_tol f)) \/ same_fugacities N T P g l (sqrt (v_tol f))).
    { intros k e a b Q. exfalso. injection Q; intro; subst r. unfold one_phase in G, L. destruct ml; cbn in G, L; discriminate. }
    destruct (stability N inner f T P z _ _) as [[|] [s|]| | |]; try discriminate; try apply ONE.
    unfold flash_2P. destruct (flasher_ss_2P N inner (v_functional f) T P z _ _ _ _ None _ _ _) as [[V|] x y l1 g1 k e|[]] eqn:E; try discriminate; try apply ONE.
    cbv zeta.
    assert (SPL : forall V l2 g2 k2 e2, ((1 <= k2)%nat -> same_fugacities N T P l2 g2 (sqrt (v_tol f))) -> Flashed (split_result false ml V l2 g2 k2 e2) = Flashed r ->
      same_fugacities N T P l g (sqrt (v_tol f)) \/ same_fugacities N T P g l (sqrt (v_tol f))).
    { intros V2 l2 g2 k2 e2 HS Q. injection Q; intro; subst r. unfold split_result in *. destruct ml; cbn in G, L, K; injection G; injection L; intros; subst; auto. }
    assert (CHK : forall V l2 g2 k2 e2, ((1 <= k2)%nat -> same_fugacities N T P l2 g2 (sqrt (v_tol f))) ->
      (if (Rltb V 0 || Rltb 1 V)%bool then Flashed (one_phase (to_TP_zs (v_liquid f) T P z) (to_TP_zs (v_gas f) T P z) ml k2 e2) else Flashed (split_result false ml V l2 g2 k2 e2)) = Flashed r ->
      same_fugacities N T P l g (sqrt (v_tol f)) \/ same_fugacities N T P g l (sqrt (v_tol f))).
    { intros V2 l2 g2 k2 e2 HS. destruct (_ || _)%bool; [apply ONE|apply SPL; auto]. }
    assert (S1 : (1 <= k)%nat -> same_fugacities N T P l1 g1 (sqrt (v_tol f))) by (intro K'; apply (SS _ _ _ _ _ _ _ _ _ _ _ _ _ _ (Rle_refl _) E K')).
    destruct (_ || _)%bool; [|apply SPL; auto]. destruct (_ && _)%bool; [|apply CHK; auto].
    destruct (flasher_ss_2P N inner (v_functional f) T P z x y l1 g1 (Some V) _ _ _) as [[V'|] x' y' l' g' k' e'|er'] eqn:E'; try discriminate.
    apply CHK. intro K'. apply (SS _ _ _ _ _ _ _ _ _ _ _ _ _ _ Tol E' K'). }
  unfold flash_TPV in H. destruct hot as [[[V0 x0] y0]|]; [|apply COLD; auto].
  destruct (flasher_ss_2P N inner (v_functional f) T P z x0 y0 _ _ V0 _ _ _) as [[V|] x y l1 g1 k e|er] eqn:E; [|apply COLD; auto|apply COLD; auto].
  destruct (_ && _)%bool; [|apply COLD; auto]. injection H; intro; subst r. cbn in *. injection G; injection L; intros; subst. left. apply (SS _ _ _ _ _ _ _ _ _ _ _ _ _ _ (Rle_refl _) E K).
Qed.

(* ---- a stable verdict gives the single phase; a hot start that fails changes nothing ---- *)
Theorem C54_stable_single : forall N inner f T P z, solves N inner -> (forall i, (i < N)%nat -> 0 <= z i) ->
  forall b, lower_G f T P z b ->
  let m := phase_at (if b then v_liquid f else v_gas f) T P z in let o := phase_at (if b then v_gas f else v_liquid f) T P z in
  (forall k t, ~ shows_unstable N z [z] (map (fun w => stability_iteration_Michelsen N inner P z (v_fugacities f m) w (v_lnphi_test f o) (v_stab_maxiter f) (v_stab_xtol f)) (v_guesses f T P z)) k t) ->
  exists r, flash_TPV N inner f T P z None = Flashed r /\ r_betas r = [1] /\
    (if b then r_gas r = None /\ r_liquids r = [phase_at (v_liquid f) T P z] else r_gas r = Some (phase_at (v_gas f) T P z) /\ r_liquids r = []).
Proof.
  intros N inner f T P z Sol Z b HB m o NS. unfold flash_TPV, flash_TP_stability_test.
  change (to_TP_zs (v_liquid f) T P z) with (phase_at (v_liquid f) T P z). change (to_TP_zs (v_gas f) T P z) with (phase_at (v_gas f) T P z). cbv zeta.
  assert (ML : min_is_liquid f (phase_at (v_liquid f) T P z) (phase_at (v_gas f) T P z) = b).
  { pose proof (min_is_liquid_spec f T P z) as M. destruct (min_is_liquid f _ _), b; auto; exfalso; unfold lower_G in M, HB; destruct M as [M|[M M2]], HB as [HB|[HB HB2]]; try lra; congruence. }
  rewrite ML.
  assert (V : stability N inner f T P z m o = Verdict true None).
  { apply C53_verdict; [reflexivity|]. cbn [known_phases]. destruct b; exact NS. }
  unfold m, o in V. destruct b; cbv iota in V; rewrite V; eexists; (split; [reflexivity|]); cbn; auto.
Qed.
Theorem C54_hot_start_fallback : forall N inner f T P z V0 x0 y0, 
  (forall V x y l g k e, flasher_ss_2P N inner (v_functional f) T P z x0 y0 (v_liquid f) (v_gas f) V0 (v_maxiter f) (v_tol f) (v_trivial f) = Returns (Some V) x y l g k e -> V < 0 \/ 1 < V) ->
  flash_TPV N inner f T P z (Some (V0, x0, y0)) = flash_TPV N inner f T P z None.
Proof.
  intros N inner f T P z V0 x0 y0 H. unfold flash_TPV. destruct (flasher_ss_2P N inner (v_functional f) T P z x0 y0 (v_liquid f) (v_gas f) V0 (v_maxiter f) (v_tol f) (v_trivial f)) as [[V|] x y l g k e|er]; auto.
  destruct (H V x y l g k e eq_refl); destruct (Rleb_spec 0 V); auto; destruct (Rleb_spec V 1); auto; lra.
Qed.

(* ---- findings ---- *)
(* the polishing call is outside the try: a trivial solution there escapes as an exception *)
Definition feed5 (e : R) : comp := fun i => match i with 0%nat => 1 - 3 * e | 1%nat => e | _ => 2 * e end.
Theorem C54_polish_trivial_refuted : forall f V0 LL, v_functional f = true -> 0 < v_trivial f <= 1 / 2 -> 0 < v_tol f -> (1 <= v_maxiter f)%nat -> (1 <= v_polish_maxiter f)%nat ->
  v_polish f = true -> 0 < v_polish_VF f ->
  exists e, 0 < e < / 3 /\ composition 3 (feed5 e) /\ composition 3 xg4 /\ composition 3 yg4 /\
  forall inner, solves 3 inner -> (forall g, inner (feed5 e) K4 g <> None) ->
  flash_2P 3 inner f 300 101325 (feed5 e) xg4 yg4 true gas3 liquid4 V0 LL = Raises (SS_error Trivial).
Proof.
  intros f V0 LL Fn Tr Tl M1 M2 Po Pv. exists (v_trivial f / 4). set (e := v_trivial f / 4). assert (Ee : 0 < e < / 3) by (unfold e; lra). split; [auto|].
  split. { split; [intros [|[|i]] _; unfold feed5; lra|]. cbn. unfold feed5. ring. }
  split. { split; [intros i _; unfold xg4; destruct (Nat.eqb i 2); lra|]. cbn. unfold xg4. cbn. field. }
  split. { split; [intros i _; unfold yg4; destruct (Nat.eqb i 1); lra|]. cbn. unfold yg4. cbn. field. }
  intros inner Sol In. unfold flash_2P. rewrite Fn.
  assert (RU : forall g V x y, inner (feed5 e) K4 g = Some (V, x, y) -> V = 0 /\ x 0%nat = 1 - 3 * e /\ x 1%nat = e /\ x 2%nat = 2 * e /\ y 0%nat = 1 - 3 * e /\ y 1%nat = 2 * e /\ y 2%nat = e).
  { intros g V x y H. destruct (Sol _ _ _ _ _ _ H) as [B [E [SX SY]]].
    pose proof (B 0%nat ltac:(lia)) as B0. pose proof (B 1%nat ltac:(lia)) as B1. pose proof (B 2%nat ltac:(lia)) as B2.
    pose proof (E 0%nat ltac:(lia)) as E0. pose proof (E 1%nat ltac:(lia)) as E1. pose proof (E 2%nat ltac:(lia)) as E2. cbn [K4 feed5 rsum] in *.
    assert (X12 : x 2%nat = 2 * x 1%nat) by lra. rewrite E1 in B1. rewrite E2, X12 in B2.
    assert (Q1 : e = x 1%nat * (1 + V)) by lra. assert (Q2 : e = x 1%nat * (1 - V / 2)) by lra.
    assert (X1 : x 1%nat <> 0) by (intro Q; rewrite Q in Q1; lra). assert (V0' : V = 0). { assert (x 1%nat * (V * (3 / 2)) = 0) by lra. apply Rmult_integral in H0. destruct H0; [contradiction|lra]. }
    subst V. splits; lra. }
  destruct (v_maxiter f) as [|m1]; [lia|]. destruct (v_polish_maxiter f) as [|m2]; [lia|].
  cbn [flasher_ss_2P]. rewrite !at_TP_lnphis. unfold sequential_substitution_2P_functional. rewrite ss_functional_gloop. cbn [gloop]. rewrite K4_values.
  destruct (inner (feed5 e) K4 V0) as [[[V x] y]|] eqn:I1; [|exfalso; exact (In V0 I1)]. destruct (RU _ _ _ _ I1) as [HV [X0 [X1 [X2 [Y0 [Y1 Y2]]]]]].
  assert (ER : ss_err 3 K4 xg4 yg4 = 0).
  { unfold ss_err, Reqb. cbn. unfold xg4, yg4, K4. cbn. destruct (Req_EM_T (/ 4) 0); [lra|]. destruct (Req_EM_T (/ 2) 0); [lra|]. field. }
  rewrite ER. replace (cycling 0 0 0 0 0) with false. 2:{ unfold cycling. destruct (Rltb_spec 0 0); [lra|reflexivity]. }
  assert (D0 : comp_difference 3 xg4 yg4 = 1 / 2).
  { rewrite comp_difference_spec. unfold distance, xg4, yg4. cbn. replace (/ 4 - / 4) with 0 by ring. rewrite Rabs_R0. replace (/ 4 - / 2) with (- / 4) by field. replace (/ 2 - / 4) with (/ 4) by field. rewrite Rabs_Ropp, Rabs_right by lra. field. }
  rewrite D0. destruct (Rltb_spec (1 / 2) (v_trivial f)); [lra|]. destruct (Rltb_spec 0 (v_tol f)); [|lra]. cbn [Nat.eqb].
  assert (MX : make_positive 3 x = x). { symmetry. apply make_positive_det. left. split; [|auto]. intros [|[|[|i]]] Hi; try lia; rewrite ?X0, ?X1, ?X2; lra. }
  assert (MY : make_positive 3 y = y). { symmetry. apply make_positive_det. left. split; [|auto]. intros [|[|[|i]]] Hi; try lia; rewrite ?Y0, ?Y1, ?Y2; lra. }
  cbv zeta. rewrite MX, MY. rewrite HV. destruct (Rltb_spec 0 (v_polish_VF f)); [|lra]. cbn [orb]. destruct (Rltb_spec (- v_polish_VF f) 0); [|lra]. rewrite Po. cbn [orb andb].
  match goal with |- context [at_TP ?a 300 101325 x] => assert (LA : s_lnphis (at_TP a 300 101325 x) 300 101325 = s_lnphis liquid4 300 101325) by reflexivity end || idtac.
  rewrite !at_TP_lnphis. rewrite ss_functional_gloop.
  change (s_lnphis (to_TP_zs (at_TP liquid4 300 101325 xg4) 300 101325 x) 300 101325) with (s_lnphis (at_TP liquid4 300 101325 xg4) 300 101325).
  change (s_lnphis (to_TP_zs (at_TP gas3 300 101325 yg4) 300 101325 y) 300 101325) with (s_lnphis (at_TP gas3 300 101325 yg4) 300 101325).
  assert (LL4 : s_lnphis (at_TP liquid4 300 101325 xg4) = s_lnphis liquid4) by (unfold at_TP; destruct (_ || _)%bool; reflexivity).
  assert (LG3 : s_lnphis (at_TP gas3 300 101325 yg4) = s_lnphis gas3) by (unfold at_TP; destruct (_ || _)%bool; reflexivity).
  rewrite LL4, LG3. cbn [gloop]. rewrite K4_values.
  destruct (inner (feed5 e) K4 (Some 0)) as [[[V' x'] y']|] eqn:I2; [|exfalso; exact (In _ I2)].
  assert (ER2 : ss_err 3 K4 x y = 0).
  { unfold ss_err, Reqb. cbn. rewrite X0, X1, X2, Y0, Y1, Y2. unfold K4. destruct (Req_EM_T (1 - 3 * e) 0); [lra|]. destruct (Req_EM_T (2 * e) 0); [lra|]. destruct (Req_EM_T e 0); [lra|]. field. splits; lra. }
  rewrite ER2. replace (cycling 0 0 0 0 0) with false. 2:{ unfold cycling. destruct (Rltb_spec 0 0); [lra|reflexivity]. }
  assert (D1 : comp_difference 3 x y = 2 * e).
  { rewrite comp_difference_spec. unfold distance. cbn [rsum]. rewrite X0, X1, X2, Y0, Y1, Y2. replace (1 - 3 * e - (1 - 3 * e)) with 0 by ring. rewrite Rabs_R0. replace (e - 2 * e) with (- e) by ring. replace (2 * e - e) with e by ring. rewrite Rabs_Ropp, Rabs_right by lra. ring. }
  rewrite D1. destruct (Rltb_spec (2 * e) (v_trivial f)); [reflexivity|]. exfalso. unfold e in *. lra.
Qed.
(* a hot start from another feed at the same T and P is accepted in the first iteration although the phases returned are not in equilibrium *)
Theorem C54_hot_start_refuted : forall f V0, v_functional f = false -> v_liquid f = liquid3 -> v_gas f = gas3 -> (1 <= v_maxiter f)%nat -> 0 < v_tol f -> v_trivial f <= 4 / 9 ->
  forall inner, solves 3 inner -> inner third K3 V0 <> None ->
  composition 3 third /\ composition 3 xg3 /\ composition 3 yg3 /\
  exists r g l, flash_TPV 3 inner f 300 101325 third (Some (V0, xg3, yg3)) = Flashed r /\ r_gas r = Some g /\ r_liquids r = [l] /\ s_zs g 0%nat <> 0 /\
    fugacity_mismatch (s_lnphis l 300 101325) (s_lnphis g 300 101325) (s_zs l) (s_zs g) 0 = 1.
Proof.
  intros f V0 Fn FL FG M Tl Tr inner Sol In.
  destruct (C52_first_iteration_refuted inner V0 (v_maxiter f) (v_tol f) (v_trivial f)) as [A [B [C [_ [x [y [l' [g' [err [E [Y F]]]]]]]]]]]; auto.
  destruct (C52_returned _ _ _ _ _ _ _ _ _ _ _ _ _ _ _ _ _ _ _ _ Sol E) as [_ [_ [_ [_ [_ [L [G _]]]]]]].
  splits; auto. unfold flash_TPV. rewrite Fn, FL, FG. cbn [flasher_ss_2P]. rewrite E. destruct (Rleb_spec 0 (/ 2)); [|lra]. destruct (Rleb_spec (/ 2) 1); [|lra]. cbn [andb].
  do 3 eexists. split; [reflexivity|]. cbn. splits; auto; subst l' g'; cbn; auto.
Qed.

(* ---- phases with composition independent fugacity coefficients: the flash finds the exact split ---- *)
Lemma ss_at_solution N inner fn T P z x y m o V0 mi tol triv K V : (1 <= mi)%nat -> 0 < tol -> triv <= distance N x y -> 
  (forall a b, K_values (s_lnphis m T P) (s_lnphis o T P) a b = K) -> inner z K V0 = Some (V, x, y) -> (forall i, (i < N)%nat -> 0 < x i /\ 0 < y i /\ y i = K i * x i) ->
  flasher_ss_2P N inner fn T P z x y m o V0 mi tol triv = Returns (Some V) x y (phase_at m T P x) (phase_at o T P y) 0 0.
Proof.
  intros M Tl D KK I Pos.
  assert (MX : make_positive N x = x) by (symmetry; apply make_positive_det; left; split; [intros i Hi; apply Rlt_le, Pos, Hi|auto]).
  assert (MY : make_positive N y = y) by (symmetry; apply make_positive_det; left; split; [intros i Hi; apply Rlt_le, Pos, Hi|auto]).
  assert (ER : ss_err N K x y = 0).
  { unfold ss_err. apply (loop_inv (fun _ s => s = 0)); [auto|]. intros i s Hi ->. unfold Reqb. destruct (Req_EM_T (y i) 0); [auto|]. destruct (Pos i Hi) as [_ [_ E]]. cbv zeta. rewrite <- E. field. auto. }
  assert (CY : cycling 0 0 0 0 0 = false) by (unfold cycling; destruct (Rltb_spec 0 0); [lra|reflexivity]).
  destruct mi as [|mi]; [lia|]. destruct fn; cbn [flasher_ss_2P].
  - rewrite !at_TP_lnphis. unfold sequential_substitution_2P_functional. rewrite ss_functional_gloop. cbn [gloop]. rewrite KK, I, MX, MY, ER, CY, comp_difference_spec.
    destruct (Rltb_spec (distance N x y) triv); [lra|]. destruct (Rltb_spec 0 tol); [|lra]. cbn [Nat.eqb]. rewrite !at_TP_to. reflexivity.
  - unfold sequential_substitution_2P. rewrite ss_2P_gloop, !at_TP_lnphis. cbn [gloop]. rewrite KK, I, MX, MY, ER, CY, comp_difference_spec.
    destruct (Rltb_spec (distance N x y) triv); [lra|]. destruct (Rltb_spec 0 tol); [|lra]. cbn [Nat.eqb with_phases]. rewrite !at_TP_to. reflexivity.
Qed.
Lemma RR_swap N z K V x y : (forall i, (i < N)%nat -> K i <> 0) -> Rachford_Rice N z K V x y -> Rachford_Rice N z (fun i => / K i) (1 - V) y x.
Proof.
  intros K0 [B [E [SX SY]]]. split; [intros i I; rewrite (B i I); ring|]. split; [|auto]. intros i I. rewrite (E i I). field. auto.
Qed.
(* the stationarity test cannot pass at the guess when the sum is clearly different from one *)
Lemma not_stationary N w c : (forall i, (i < N)%nat -> 0 < w i) -> rsum N w = 1 -> Rsqr (rsum N (fun i => w i * c i) - 1) <= rsum N (fun i => Rsqr (c i - 1)).
Proof.
  intros W SW. assert (Q : rsum N (fun i => w i * c i) - 1 = rsum N (fun i => w i * (c i - 1))).
  { rewrite <- SW at 1. rewrite <- rsum_minus. apply rsum_ext. intros. ring. }
  rewrite Q. set (d := fun i => c i - 1). set (m := rsum N (fun i => w i * d i)).
  assert (J : 0 <= rsum N (fun i => w i * Rsqr (d i - m))) by (apply rsum_nonneg; intros i I; apply Rmult_le_pos; [apply Rlt_le, W, I|apply Rle_0_sqr]).
  assert (E : rsum N (fun i => w i * Rsqr (d i - m)) = rsum N (fun i => w i * Rsqr (d i)) - 2 * m * m + m * m).
  { transitivity (rsum N (fun i => w i * Rsqr (d i)) - 2 * m * rsum N (fun i => w i * d i) + m * m * rsum N w); [|rewrite SW; unfold m; ring].
    rewrite <- !rsum_scal_l, <- rsum_minus, <- rsum_plus. apply rsum_ext. intros i I. unfold Rsqr. ring. }
  assert (LE : rsum N (fun i => w i * Rsqr (d i)) <= rsum N (fun i => Rsqr (d i))).
  { apply rsum_le. intros i I. cbv beta. pose proof (Rle_0_sqr (d i)). assert (w i <= 1).
    { rewrite <- SW. replace (w i) with (rsum N (fun k => if Nat.eqb k i then w i else 0)).
      - apply rsum_le. intros k Hk. destruct (Nat.eqb_spec k i); [subst; lra|apply Rlt_le, W, Hk].
      - rewrite (rsum_single N i); [rewrite Nat.eqb_refl; auto|auto|]. intros k Hk Dk. destruct (Nat.eqb_spec k i); [lia|auto]. }
    assert (0 < w i) by auto. nra. }
  unfold m, d in *. unfold Rsqr in *. lra.
Qed.
Theorem C54_ideal_split : forall N inner f T P (z al ag w : comp) rest (b : bool) V x y,
  let am := if b then al else ag in let ao := if b then ag else al in
  let K := fun i : nat => exp (am i - ao i) in
  (* the phases: constant fugacity coefficients at T, P, used throughout *)
  (forall a, s_lnphis (v_liquid f) T P a = al) -> (forall a, s_lnphis (v_gas f) T P a = ag) ->
  (forall p, s_T p = T -> s_P p = P -> v_fugacities f p = (fun i => P * s_zs p i * exp (s_lnphis p T P (s_zs p) i)) /\ v_lnphi_test f p = s_lnphis p T P) ->
  0 < P -> lower_G f T P z b -> (1 <= N)%nat -> (forall i, (i < N)%nat -> 0 < z i) ->
  v_stab_far f = false -> (2 <= v_stab_maxiter f)%nat -> 0 < v_stab_xtol f -> (1 <= v_maxiter f)%nat -> 0 < v_tol f ->
  (* a guess with every component in it *)
  v_guesses f T P z = w :: rest -> (forall i, (i < N)%nat -> 0 < w i) -> rsum N w = 1 ->
  (* the Rachford-Rice solver answers, and the split is a clear one *)
  solves N inner -> inner z K None = Some (V, x, y) -> (forall K' g, (forall i, (i < N)%nat -> K' i = K i) -> inner z K' g = inner z K None) ->
  0 < v_polish_VF f -> v_polish_VF f <= V <= 1 - v_polish_VF f -> v_trivial f <= distance N x y ->
  v_stab_xtol f <= Rsqr (rsum N (fun i => K i * z i) - 1) ->
  1 / 10 ^ 9 <= Rabs (rsum N (fun i => K i * z i) - 1) <= 10 ^ 20 -> 1 / 10 ^ 7 <= rsum N (fun i => Rsqr (am i - ao i)) ->
  (exists i, (i < N)%nat /\ z i <> x i) -> 1 / 10 ^ 4 <= mean_distance N z y -> 2 / 100 <= mean_relative_distance N z y ->
  exists r g l beta, flash_TPV N inner f T P z None = Flashed r /\ r_gas r = Some g /\ r_liquids r = [l] /\ r_betas r = [beta; 1 - beta] /\
    Rachford_Rice N z (fun i => exp (al i - ag i)) beta (s_zs l) (s_zs g) /\ evaluated (v_gas f) T P (s_zs g) g /\ evaluated (v_liquid f) T P (s_zs l) l.
Proof.
  intros N inner f T P z al ag w rest b V x y am ao K HL HG HP P0 HB HN Z Far M1 X1 M2 T1 Gs W SW Sol In Inv Pv HV Tr XS S1 LK Mv D1 D2.
  unfold flash_TPV, flash_TP_stability_test.
  change (to_TP_zs (v_liquid f) T P z) with (phase_at (v_liquid f) T P z). change (to_TP_zs (v_gas f) T P z) with (phase_at (v_gas f) T P z). cbv zeta.
  assert (ML : min_is_liquid f (phase_at (v_liquid f) T P z) (phase_at (v_gas f) T P z) = b).
  { pose proof (min_is_liquid_spec f T P z) as M. destruct (min_is_liquid f _ _), b; auto; exfalso; unfold lower_G in M, HB; destruct M as [M|[M M']], HB as [HB|[HB HB']]; try lra; congruence. }
  rewrite ML.
  set (m := phase_at (if b then v_liquid f else v_gas f) T P z). set (o := phase_at (if b then v_gas f else v_liquid f) T P z).
  replace (if b then phase_at (v_liquid f) T P z else phase_at (v_gas f) T P z) with m by (unfold m; destruct b; reflexivity).
  replace (if b then phase_at (v_gas f) T P z else phase_at (v_liquid f) T P z) with o by (unfold o; destruct b; reflexivity).
  assert (Lm : forall a, s_lnphis m T P a = am) by (intro a; unfold m, am; cbn; destruct b; auto).
  assert (Lo : forall a, s_lnphis o T P a = ao) by (intro a; unfold o, ao; cbn; destruct b; auto).
  pose proof (Sol _ _ _ _ _ _ In) as RR. pose proof RR as [RB [RE [RX RY]]].
  assert (KP : forall i, 0 < K i) by (intro i; apply exp_pos).
  pose proof (RR_nonneg N z K V x y RR (fun i I => Rlt_le _ _ (Z i I)) (fun i _ => KP i) ltac:(lra)) as NN.
  assert (XY : forall i, (i < N)%nat -> 0 < x i /\ 0 < y i /\ y i = K i * x i).
  { intros i I. destruct (NN i I) as [X0 Y0]. pose proof (RB i I) as B. pose proof (RE i I) as E. pose proof (Z i I) as Zi. pose proof (KP i) as Ki.
    assert (Xi : 0 < x i). { destruct X0 as [X0|X0]; [auto|]. exfalso. rewrite <- X0, Rmult_0_r in E. rewrite E, <- X0 in B. lra. }
    splits; auto. rewrite E. apply Rmult_lt_0_compat; auto. }
  (* the stability verdict *)
  assert (ST : exists t, stability_iteration_Michelsen N inner P z (v_fugacities f m) w (v_lnphi_test f o) (v_stab_maxiter f) (v_stab_xtol f) = Some t /\
     t_sum t = rsum N (fun i => K i * z i) /\ (forall i, (i < N)%nat -> t_Ks t i = K i) /\ t_V t = V /\ t_trial_zs t = x /\ t_appearing_zs t = y).
  { destruct (HP m eq_refl eq_refl) as [FM _]. destruct (HP o eq_refl eq_refl) as [_ FO]. rewrite FM, FO. replace (s_zs m) with z by reflexivity. rewrite Lm.
    replace (s_lnphis o T P) with (fun _ : vec => ao) by (apply functional_extensionality; intro a; rewrite Lo; auto).
    destruct (C53_ideal_exact N inner P z w am ao (v_stab_maxiter f) (v_stab_xtol f) P0 M1 X1) as [t [E [TK TS]]]; auto.
    exists t. split; [exact E|].
    assert (TS' : t_sum t = rsum N (fun i => K i * z i)).
    { destruct TS as [TS|[_ [_ Bad]]]; [apply (TS 0%nat); lia|]. exfalso.
      assert (Q : rsum N (fun i => w i * stationarity P (fun _ => ao) (fun i => P * z i * exp (am i)) 1 w i) = rsum N (fun i => K i * z i)).
      { apply rsum_ext. intros i I. unfold stationarity, test_fugacity, K, Rminus. rewrite exp_plus, exp_Ropp. pose proof (W i I). pose proof (exp_pos (ao i)). field. splits; lra. }
      pose proof (not_stationary N w (stationarity P (fun _ => ao) (fun i => P * z i * exp (am i)) 1 w) W SW) as NS. rewrite Q in NS. lra. }
    split; [auto|]. split; [auto|].
    destruct (C53_converged N inner P z (fun i => P * z i * exp (am i)) w (fun _ => ao) (v_stab_maxiter f) (v_stab_xtol f) t SW (fun i I => Rgt_not_eq _ _ (Z i I)) E) as [CV|[CV _]].
    - destruct CV as [_ [_ [_ [_ [_ [[V' [x' [y' [I1 [I2 [I3 I4]]]]]]|[I1 _]]]]]]].
      + rewrite (Inv (t_Ks t) None TK), In in I1. injection I1; intros E3 E2 E1. splits; congruence.
      + rewrite (Inv (t_Ks t) None TK), In in I1. discriminate.
    - exfalso. assert (0 < rsum N (fun i => K i * z i)). { apply rsum_pos; [lia|]. intros i I. apply Rmult_lt_0_compat; auto. } lra. }
  destruct ST as [t [E [TS [TK [TV [TX TY]]]]]].
  assert (VD : stability N inner f T P z m o = Verdict false (Some (report N 0 t))).
  { unfold stability. rewrite Gs, Far. cbn [map]. replace (s_zs m) with z by reflexivity. rewrite E.
    match goal with |- stability_test_Michelsen N ?oo z None ?tr = _ => apply (C53_first_reported N oo z None tr 0 t); auto end.
    - split; [reflexivity|]. cbn [known_phases]. split.
      + constructor.
        * rewrite TX. exact Mv.
        * rewrite TS. exact S1.
        * replace (rsum N (fun i => Rsqr (ln (t_Ks t i)))) with (rsum N (fun i => Rsqr (am i - ao i))); [auto|]. apply rsum_ext. intros i I. rewrite (TK i I). unfold K. rewrite ln_exp. auto.
        * intros e [<-|[]]. rewrite TY. auto.
      + unfold splits_feed. rewrite TV. lra.
    - intros k' t' Hk. lia. }
  rewrite VD. unfold flash_2P. replace (w_trial_zs (report N 0 t)) with x by (symmetry; exact TX). replace (w_appearing_zs (report N 0 t)) with y by (symmetry; exact TY).
  replace (if b then phase_at (v_liquid f) T P z else phase_at (v_gas f) T P z) with m by (unfold m; destruct b; reflexivity).
  replace (if b then phase_at (v_gas f) T P z else phase_at (v_liquid f) T P z) with o by (unfold o; destruct b; reflexivity).
  rewrite (ss_at_solution N inner (v_functional f) T P z x y m o None (v_maxiter f) (v_tol f) (v_trivial f) K V); auto.
  2:{ intros a c. unfold K_values, K. apply functional_extensionality. intro i. rewrite Lm, Lo. auto. }
  cbv zeta. destruct (Rltb_spec V (v_polish_VF f)); [lra|]. destruct (Rltb_spec (1 - v_polish_VF f) V); [lra|]. cbn [orb].
  unfold split_result. unfold K, am, ao, m, o in *. destruct b; cbn.
  - do 3 eexists. exists V. split; [reflexivity|]. do 3 (split; [reflexivity|]). split; [exact RR|]. split; repeat split; reflexivity.
  - do 3 eexists. exists (1 - V). split; [reflexivity|]. do 2 (split; [reflexivity|]). split; [cbn; do 2 f_equal; f_equal; ring|]. split; [|split; repeat split; reflexivity]. cbn.
    replace (fun i => exp (al i - ag i)) with (fun i => / exp (ag i - al i)); [apply RR_swap; auto; intros; apply Rgt_not_eq, exp_pos|].
    apply functional_extensionality. intro i. rewrite <- exp_Ropp. f_equal. ring.
Qed.
(* an equimolar feed with equilibrium ratios 2 and 1/2 splits in halves; so the hypotheses above are met *)
Definition flat (a : comp) : sphase := {| s_T := 300; s_P := 101325; s_zs := half; s_lnphis := fun _ _ _ => a |}.
Definition lnK2 : comp := fun i => if Nat.eqb i 0 then ln 2 else - ln 2.
Definition zero : comp := fun _ => 0.
Definition vl2 (fn : bool) : vl :=
  {| v_liquid := flat lnK2; v_gas := flat zero; v_G := fun _ => 0; v_named_l := fun _ => true;
     v_fugacities := fun p i => s_P p * s_zs p i * exp (s_lnphis p (s_T p) (s_P p) (s_zs p) i); v_lnphi_test := fun p => s_lnphis p (s_T p) (s_P p);
     v_guesses := fun _ _ z => [z]; v_functional := fn; v_stab_maxiter := 500; v_stab_xtol := 1 / 10 ^ 12; v_stab_far := false; v_stab_min := None;
     v_tol := 1 / 10 ^ 13; v_maxiter := 5000; v_trivial := 1 / 10 ^ 5; v_polish := true; v_polish_VF := 1 / 10 ^ 6; v_polish_tol := 1 / 10 ^ 25; v_polish_maxiter := 1000 |}.
Lemma one_solver_congr N z0 K0 V0 xa ya K g : (forall i, (i < N)%nat -> K i = K0 i) -> one_solver N z0 K0 V0 xa ya z0 K g = Some (V0, xa, ya).
Proof.
  intro H. unfold one_solver. replace (forallb _ _) with true; [auto|]. symmetry. apply forallb_forall. intros i I. apply in_seq in I. rewrite (H i ltac:(lia)). unfold Reqb.
  destruct (Req_EM_T (z0 i) (z0 i)); [|congruence]. destruct (Req_EM_T (K0 i) (K0 i)); [auto|congruence].
Qed.
Example C54_ideal_hypotheses_met : forall fn, exists r g l beta,
  flash_TPV 2 (one_solver 2 half K2 (/ 2) x2 y2) (vl2 fn) 300 101325 half None = Flashed r /\ r_gas r = Some g /\ r_liquids r = [l] /\ r_betas r = [beta; 1 - beta] /\
  Rachford_Rice 2 half (fun i => exp (lnK2 i - zero i)) beta (s_zs l) (s_zs g) /\ evaluated (flat zero) 300 101325 (s_zs g) g /\ evaluated (flat lnK2) 300 101325 (s_zs l) l.
Proof.
  intro fn.
  assert (KK : forall i, exp (lnK2 i - zero i) = K2 i).
  { intro i. unfold lnK2, K2, zero. rewrite Rminus_0_r. destruct (Nat.eqb i 0); [apply exp_ln; lra|]. rewrite exp_Ropp, exp_ln by lra. auto. }
  assert (S : rsum 2 (fun i => exp (lnK2 i - zero i) * half i) = 5 / 4) by (cbn [rsum]; rewrite !KK; unfold K2, half; cbn; field).
  assert (L2 : 1 / 2 < ln 2).
  { rewrite <- (ln_exp (1 / 2)). apply ln_increasing; [apply exp_pos|]. replace 2 with (exp (1 / 2) * exp (1 / 2) / exp 1 * 2) at 1 by (rewrite <- exp_plus; replace (1 / 2 + 1 / 2) with 1 by field; field; apply Rgt_not_eq, exp_pos).
    pose proof exp_le_3. pose proof (exp_pos (1 / 2)). assert (Q : exp (1 / 2) * exp (1 / 2) = exp 1) by (rewrite <- exp_plus; f_equal; field). rewrite Q. replace (exp 1 / exp 1 * 2) with 2 by (field; apply Rgt_not_eq, exp_pos). nra. }
  apply (C54_ideal_split 2 _ (vl2 fn) 300 101325 half lnK2 zero half [] true (/ 2) x2 y2); cbn [vl2 v_liquid v_gas v_fugacities v_lnphi_test v_stab_far v_stab_maxiter v_stab_xtol v_maxiter v_tol v_guesses v_polish_VF v_trivial]; auto; try lra; try lia.
  - intros p <- <-. auto.
  - right. auto.
  - intros i I. unfold half. lra.
  - intros i I. unfold half. lra.
  - cbn. unfold half. field.
  - apply one_solver_solves, RR2.
  - apply one_solver_congr. intros. apply KK.
  - intros K' g H. rewrite !one_solver_congr; auto. intros i I. rewrite (H i I). apply KK.
  - unfold distance, x2, y2. cbn. rewrite (Rabs_left (/ 3 - 2 / 3)), (Rabs_right (2 / 3 - / 3)) by lra. lra.
  - rewrite S. unfold Rsqr. lra.
  - rewrite S. rewrite Rabs_right by lra. lra.
  - cbn. unfold lnK2, zero, Rsqr. cbn. nra.
  - exists 0%nat. split; [lia|]. unfold half, x2. cbn. lra.
  - unfold mean_distance, half, y2. cbn. rewrite (Rabs_left (/ 2 - 2 / 3)), (Rabs_right (/ 2 - / 3)) by lra. lra.
  - unfold mean_relative_distance, half, y2. cbn. destruct (Req_EM_T (2 / 3) 0); [lra|]. destruct (Req_EM_T (/ 3) 0); [lra|]. rewrite (Rabs_right (1 - / 2 / (2 / 3))), (Rabs_left (1 - / 2 / / 3)) by lra. lra.
Qed.
(* outside the two phase region: the Rachford-Rice fraction is outside [0, 1] by more than the margin, or there is none *)
Theorem C54_ideal_single : forall N inner f T P (z al ag : comp) (b : bool),
  let am := if b then al else ag in let ao := if b then ag else al in
  let K := fun i : nat => exp (am i - ao i) in
  (forall a, s_lnphis (v_liquid f) T P a = al) -> (forall a, s_lnphis (v_gas f) T P a = ag) ->
  (forall p, s_T p = T -> s_P p = P -> v_fugacities f p = (fun i => P * s_zs p i * exp (s_lnphis p T P (s_zs p) i)) /\ v_lnphi_test f p = s_lnphis p T P) ->
  0 < P -> lower_G f T P z b -> (1 <= N)%nat -> (forall i, (i < N)%nat -> 0 < z i) -> (2 <= v_stab_maxiter f)%nat -> 0 < v_stab_xtol f ->
  (forall w, In w (v_guesses f T P z) -> rsum N w = 1 /\ forall i, (i < N)%nat -> 0 < w i) ->
  solves N inner -> (forall K' V x y, (forall i, (i < N)%nat -> K' i = K i) -> inner z K' None = Some (V, x, y) -> V < - (1 / 10 ^ 6) \/ 1 + 1 / 10 ^ 6 < V) ->
  exists r, flash_TPV N inner f T P z None = Flashed r /\ r_betas r = [1] /\
    (if b then r_gas r = None /\ r_liquids r = [phase_at (v_liquid f) T P z] else r_gas r = Some (phase_at (v_gas f) T P z) /\ r_liquids r = []).
Proof.
  intros N inner f T P z al ag b am ao K HL HG HP P0 HB HN Z M1 X1 GS Sol Out.
  apply (C54_stable_single N inner f T P z Sol (fun i I => Rlt_le _ _ (Z i I)) b HB).
  set (m := phase_at (if b then v_liquid f else v_gas f) T P z). set (o := phase_at (if b then v_gas f else v_liquid f) T P z).
  intros k t [Hk [[Mv _ _ _] Sp]]. rewrite nth_error_map in Hk. destruct (nth_error (v_guesses f T P z) k) as [w|] eqn:Hw; [|discriminate]. cbn in Hk. injection Hk as Hk.
  apply nth_error_In in Hw. destruct (GS w Hw) as [SW W].
  assert (Lm : forall a, s_lnphis m T P a = am) by (intro a; unfold m, am; cbn; destruct b; auto).
  assert (Lo : forall a, s_lnphis o T P a = ao) by (intro a; unfold o, ao; cbn; destruct b; auto).
  destruct (HP m eq_refl eq_refl) as [FM _]. destruct (HP o eq_refl eq_refl) as [_ FO]. rewrite FM, FO in Hk. replace (s_zs m) with z in Hk by reflexivity. rewrite Lm in Hk.
  replace (s_lnphis o T P) with (fun _ : vec => ao) in Hk by (apply functional_extensionality; intro a; rewrite Lo; auto).
  destruct (C53_ideal_exact N inner P z w am ao (v_stab_maxiter f) (v_stab_xtol f) P0 M1 X1) as [t' [E [TK TS]]]; auto.
  cbv beta in Hk. rewrite Hk in E. injection E; intro; subst t'.
  destruct (C53_converged N inner P z (fun i => P * z i * exp (am i)) w (fun _ => ao) (v_stab_maxiter f) (v_stab_xtol f) t SW (fun i I => Rgt_not_eq _ _ (Z i I)) Hk) as [CV|[CV _]].
  - destruct CV as [_ [_ [_ [_ [_ [[V' [x' [y' [I1 [I2 [I3 I4]]]]]]|[I1 [_ [I3 _]]]]]]]]].
    + destruct (Out _ _ _ _ TK I1); unfold splits_feed in Sp; lra.
    + destruct Mv as [i [_ D]]. rewrite I3 in D. contradiction.
  - destruct TS as [TS|[TS _]]; [|lra]. assert (0 < rsum N (fun i => K i * z i)). { apply rsum_pos; [lia|]. intros i I. apply Rmult_lt_0_compat; [apply exp_pos|auto]. }
    destruct (TS 0%nat ltac:(lia)) as [Q _]. unfold K in H. lra.
Qed.
Example C54_polish_hypotheses_met e : 0 < e < / 3 -> exists inner, solves 3 inner /\ forall g, inner (feed5 e) K4 g <> None.
Proof.
  intro He. exists (one_solver 3 (feed5 e) K4 0 (feed5 e) (fun i => match i with 0%nat => 1 - 3 * e | 1%nat => 2 * e | _ => e end)). split; [|intro; rewrite one_solver_same; discriminate]. apply one_solver_solves.
  unfold Rachford_Rice, split_balance, feed5, K4. splits.
  - intros [|[|[|i]]] I; try lia; cbn; ring.
  - intros [|[|[|i]]] I; try lia; cbn; field.
  - cbn. ring.
  - cbn. ring.
Qed.
