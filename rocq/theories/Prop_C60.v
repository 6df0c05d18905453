(* C60: the direct bubble and dew functions of T and of P (bubble_T_, dew_T_, bubble_P_, dew_P_Michelsen_Mollerup). *)
From Coq Require Import Reals List Bool Arith Lra Lia.
From Coquelicot Require Import Coquelicot.
From Verif Require Import Base BaseFacts Spec_split Spec_saturation Model_dewbubble.
Open Scope R_scope.

Lemma d_raw_eq bubble zs ll lg i : d_raw zs bubble ll lg i = if bubble then appearing zs ll lg i else appearing zs lg ll i.
Proof.
  unfold d_raw, appearing. destruct bubble; unfold Rminus, Rdiv; rewrite exp_plus, exp_Ropp.
  - ring.
  - field. pose proof (exp_pos (ll i)). pose proof (exp_pos (lg i)). lra.
Qed.
Lemma d_total_eq N w : d_total N w = rsum N w.
Proof. unfold d_total. rewrite loop_rsum. ring. Qed.
Lemma d_difference_eq N zs w : d_difference N zs w = rsum N (fun i => Rabs (zs i - w i)).
Proof. unfold d_difference. rewrite loop_rsum. ring. Qed.
Lemma copysign_abs a s : Rabs (copysign a s) = Rabs a.
Proof. unfold copysign. destruct (Rltb s 0); rewrite ?Rabs_Ropp; apply Rabs_Rabsolu. Qed.

Section Direct.
  Variable Ph : Type.
  Variables (N : nat) (zs : vec).
  Variables (gas_to liquid_to : R -> vec -> option Ph) (props : Ph -> option (vec * vec)).
  Variables (bubble over_P : bool) (xtol max_step tol : R) (freq : nat).
  Let d_body := d_body Ph N zs gas_to liquid_to props bubble over_P xtol max_step tol freq.
  Let d_iterate := d_iterate Ph N zs gas_to liquid_to props bubble over_P xtol max_step tol freq.
  Let saturation := saturation Ph N zs gas_to liquid_to props bubble over_P xtol max_step tol freq.

  (* the mixture is the liquid at a bubble point and the gas at a dew point *)
  Definition mixture_to (v : R) : option Ph := if bubble then liquid_to v zs else gas_to v zs.
  Definition other_to (v : R) (c : comp) : option Ph := if bubble then gas_to v c else liquid_to v c.
  Definition is_point (v : R) (c : comp) (liq gas : option Ph) : Prop :=
    exists w mix other lm dm lo d_o,
      mixture_to v = Some mix /\ props mix = Some (lm, dm) /\ other_to v w = Some other /\ props other = Some (lo, d_o) /\
      (liq, gas) = (if bubble then (Some mix, Some other) else (Some other, Some mix)) /\
      rsum N (appearing zs lm lo) <> 0 /\ slope N zs lm lo dm d_o <> 0 /\
      (forall i, c i = appearing zs lm lo i / rsum N (appearing zs lm lo)) /\
      Rabs (Rmin max_step (Rabs (excess N zs lm lo / slope N zs lm lo dm d_o))) < xtol /\
      tol <= rsum N (fun i => Rabs (zs i - appearing zs lm lo i)).

  Lemma body_break n s s' : d_body n s = Break s' ->
    d_old Ph s' = Some (d_guess Ph s') /\ is_point (d_guess Ph s') (d_comp Ph s') (d_liquid Ph s') (d_gas Ph s').
  Proof.
    unfold d_body, Model_dewbubble.d_body.
    assert (Hh : forall a l g, d_handler Ph max_step a s l g = Break s' -> False).
    { intros a l g. unfold d_handler. destruct (d_old Ph s); discriminate. }
    destruct (gas_to _ _) as [gas|] eqn:Eg; [|intros H; destruct (Hh _ _ _ H)].
    destruct (props gas) as [[lg dg]|] eqn:Epg; [|intros H; destruct (Hh _ _ _ H)].
    destruct (liquid_to _ _) as [liq|] eqn:El; [|intros H; destruct (Hh _ _ _ H)].
    destruct (props liq) as [[ll dl]|] eqn:Epl; [|intros H; destruct (Hh _ _ _ H)].
    unfold d_update. destruct (2 <? d_fails Ph s)%nat; [discriminate|].
    destruct (negb (n mod freq =? 0)%nat); [discriminate|]. cbv zeta.
    set (w := d_raw zs bubble ll lg).
    destruct (Reqb_spec (d_df N bubble w dl dg) 0) as [|Hdf]; [discriminate|].
    destruct (Rltb_spec (d_difference N zs w) tol) as [|Ht]; [discriminate|].
    destruct (Reqb_spec (d_total N w) 0) as [|Hn]; [discriminate|].
    match goal with |- context [Rltb (Rabs ?t) xtol] => destruct (Rltb_spec (Rabs t) xtol) as [Hx|]; [|discriminate] end.
    intros E. injection E. intros <-. cbn. split; [reflexivity|].
    rewrite d_difference_eq in Ht. rewrite d_total_eq in Hn, Hx. rewrite d_total_eq.
    set (lm := if bubble then ll else lg). set (lo := if bubble then lg else ll).
    set (dm := if bubble then dl else dg). set (d_o := if bubble then dg else dl).
    assert (Hw : forall i, w i = appearing zs lm lo i) by (intros i; unfold w, lm, lo; rewrite d_raw_eq; destruct bubble; reflexivity).
    assert (Hr : rsum N w = rsum N (appearing zs lm lo)) by (apply rsum_ext; intros i _; apply Hw).
    assert (Hsl : d_df N bubble w dl dg = slope N zs lm lo dm d_o).
    { unfold d_df, slope. rewrite loop_rsum, Rplus_0_l. apply rsum_ext. intros i _. rewrite Hw. unfold dm, d_o. destruct bubble; reflexivity. }
    rewrite Hsl in Hdf, Hx. rewrite Hr in Hn, Hx.
    exists (d_comp Ph s), (if bubble then liq else gas), (if bubble then gas else liq), lm, dm, lo, d_o.
    unfold mixture_to, other_to, gas_comp, liquid_comp in *.
    splits; try (unfold lm, dm, lo, d_o; destruct bubble; assumption); try assumption.
    - destruct bubble; reflexivity.
    - intros i. rewrite Hw, Hr. reflexivity.
    - unfold damped in Hx. replace (d_guess Ph s + copysign (Rmin max_step (Rabs (- (rsum N (appearing zs lm lo) - 1) / slope N zs lm lo dm d_o))) (- (rsum N (appearing zs lm lo) - 1) / slope N zs lm lo dm d_o) - d_guess Ph s)
        with (copysign (Rmin max_step (Rabs (- (rsum N (appearing zs lm lo) - 1) / slope N zs lm lo dm d_o))) (- (rsum N (appearing zs lm lo) - 1) / slope N zs lm lo dm d_o)) in Hx by ring.
      rewrite copysign_abs in Hx. unfold excess.
      replace (Rabs ((rsum N (appearing zs lm lo) - 1) / slope N zs lm lo dm d_o)) with (Rabs (- (rsum N (appearing zs lm lo) - 1) / slope N zs lm lo dm d_o))
        by (unfold Rdiv; rewrite Ropp_mult_distr_l_reverse, Rabs_Ropp; reflexivity).
      exact Hx.
    - rewrite (rsum_ext N (fun i => Rabs (zs i - appearing zs lm lo i)) (fun i => Rabs (zs i - w i))) by (intros i _; rewrite Hw; reflexivity). lra.
  Qed.
  Lemma iterate_answer todo : forall n s v c l g k err, d_iterate todo n s = Ret (v, c, l, g, k, err) ->
    (S k < n + todo)%nat -> err = 0 /\ is_point v c l g.
  Proof.
    induction todo as [|todo IH]; intros n s v c l g k err; cbn.
    - unfold d_finish. destruct (d_old Ph s); [|discriminate]. destruct (Rltb _ _); [discriminate|]. intros E. injection E. intros. subst. lia.
    - fold d_body. destruct (d_body n s) as [s'|s'|e] eqn:Eb; [| |discriminate].
      + intros E Hk. eapply IH; [exact E|lia].
      + destruct (body_break n s s' Eb) as [Ho Hb]. unfold d_finish. rewrite Ho.
        destruct (Rltb _ _); [discriminate|]. intros E _. injection E. intros <- <- <- <- <- <-.
        split; [rewrite Rminus_diag_eq by reflexivity; apply Rabs_R0|exact Hb].
  Qed.

  (* C60 *)
  Theorem C60_answer maxiter guess c0 v c l g n err :
    saturation maxiter guess c0 = Ret (v, c, l, g, n, err) -> (S n < maxiter)%nat -> err = 0 /\ is_point v c l g.
  Proof. intros H Hn. eapply iterate_answer; [exact H|exact Hn]. Qed.

  Theorem C60_residual maxiter guess c0 v c l g n err :
    xtol <= max_step -> saturation maxiter guess c0 = Ret (v, c, l, g, n, err) -> (S n < maxiter)%nat ->
    exists w mix other lm dm lo d_o,
      mixture_to v = Some mix /\ props mix = Some (lm, dm) /\ other_to v w = Some other /\ props other = Some (lo, d_o) /\
      Rabs (excess N zs lm lo) < xtol * Rabs (slope N zs lm lo dm d_o) /\ rsum N c = 1 /\
      forall i, c i * exp (lo i) * (1 + excess N zs lm lo) = zs i * exp (lm i).
  Proof.
    intros Hm H Hn. destruct (C60_answer _ _ _ _ _ _ _ _ _ H Hn) as [_ [w [mix [other [lm [dm [lo [d_o [A1 [A2 [A3 [A4 [_ [A5 [A6 [A7 [A8 _]]]]]]]]]]]]]]]]].
    exists w, mix, other, lm, dm, lo, d_o. splits; try assumption.
    - set (s := Rabs (excess N zs lm lo / slope N zs lm lo dm d_o)) in *.
      assert (Hs : 0 <= s) by apply Rabs_pos.
      assert (Hx : 0 < xtol) by (pose proof (Rabs_pos (Rmin max_step s)); lra).
      rewrite Rabs_pos_eq in A8 by (apply Rmin_glb; lra).
      assert (Hlt : s < xtol) by (unfold Rmin in A8; destruct (Rle_dec max_step s); lra).
      assert (Hpd : 0 < Rabs (slope N zs lm lo dm d_o)) by (apply Rabs_pos_lt; exact A6).
      assert (Es : Rabs (excess N zs lm lo) = s * Rabs (slope N zs lm lo dm d_o)).
      { unfold s. rewrite <- Rabs_mult. f_equal. field. exact A6. }
      rewrite Es. nra.
    - rewrite (rsum_ext N c (fun i => appearing zs lm lo i / rsum N (appearing zs lm lo))) by (intros i _; apply A7).
      rewrite rsum_div_r. field. exact A5.
    - intros i. rewrite A7. unfold excess. replace (1 + (rsum N (appearing zs lm lo) - 1)) with (rsum N (appearing zs lm lo)) by ring.
      unfold appearing at 1. field. split; [pose proof (exp_pos (lo i)); lra|exact A5].
  Qed.

  (* Claimed: the saturation point of a pure component can be found. Refuted: for one component any answer misses the saturation
     condition by the trivial solution tolerance. *)
  Theorem C60_pure_refuted maxiter guess c0 v c l g n err : N = 1%nat -> zs 0%nat = 1 ->
    saturation maxiter guess c0 = Ret (v, c, l, g, n, err) -> (S n < maxiter)%nat ->
    exists w mix other lm dm lo d_o,
      mixture_to v = Some mix /\ props mix = Some (lm, dm) /\ other_to v w = Some other /\ props other = Some (lo, d_o) /\
      tol <= Rabs (excess N zs lm lo).
  Proof.
    intros HN Hz H Hn. destruct (C60_answer _ _ _ _ _ _ _ _ _ H Hn) as [_ [w [mix [other [lm [dm [lo [d_o [A1 [A2 [A3 [A4 [_ [_ [_ [_ [_ A9]]]]]]]]]]]]]]]]].
    exists w, mix, other, lm, dm, lo, d_o. splits; try assumption.
    unfold excess. revert A9. rewrite HN. cbn. rewrite Hz, !Rplus_0_l, <- (Rabs_Ropp (appearing zs lm lo 0%nat - 1)), Ropp_minus_distr. auto.
  Qed.

  (* Claimed: after a failed evaluation another point is tried (and the calculation is given up after three failures). Refuted, for every
     update frequency: the point after the first Newton step, if a phase is undefined there, is tried in all the remaining iterations. *)
  Definition undefined_at (v : R) (c : comp) : Prop :=
    let g := gas_to v (if bubble then c else zs) in
    let l := liquid_to v (if bubble then zs else c) in
    (match g with None => True | Some p => props p = None end) \/ (match l with None => True | Some p => props p = None end).
  Lemma undefined_body n s old : d_old Ph s = Some old -> undefined_at (d_guess Ph s) (d_comp Ph s) ->
    damped max_step old (d_step Ph s) = d_guess Ph s ->
    exists liq gas, d_body n s = Go (D Ph (d_guess Ph s) (d_old Ph s) (d_step Ph s) (S (d_fails Ph s)) (d_comp Ph s) liq gas).
  Proof.
    intros Ho Hu Hg. unfold d_body, Model_dewbubble.d_body.
    assert (Hh : forall a l g, d_handler Ph max_step a s l g = Go (D Ph (d_guess Ph s) (d_old Ph s) (d_step Ph s) (S (d_fails Ph s)) (d_comp Ph s) l g)).
    { intros a l g. unfold d_handler. rewrite Ho, Hg. destruct a; reflexivity. }
    unfold undefined_at in Hu. fold (gas_comp Ph zs bubble s) in Hu. fold (liquid_comp Ph zs bubble s) in Hu. cbv zeta in Hu.
    destruct (gas_to (d_guess Ph s) (gas_comp Ph zs bubble s)) as [gas|]; [|rewrite Hh; eauto].
    destruct (props gas) as [[lg dg]|]; [|rewrite Hh; eauto].
    destruct Hu as [Hu|Hu]; [discriminate|].
    destruct (liquid_to (d_guess Ph s) (liquid_comp Ph zs bubble s)) as [liq|]; [|rewrite Hh; eauto].
    rewrite Hu, Hh. eauto.
  Qed.
  Lemma stuck_iterate todo : forall n s old, d_old Ph s = Some old -> undefined_at (d_guess Ph s) (d_comp Ph s) ->
    damped max_step old (d_step Ph s) = d_guess Ph s -> xtol < Rabs (d_guess Ph s - old) -> d_iterate todo n s = Exn NotConverged.
  Proof.
    induction todo as [|todo IH]; intros n s old Ho Hu Hg Hx; cbn.
    - unfold d_finish. rewrite Ho. destruct (Rltb_spec xtol (Rabs (d_guess Ph s - old))); [reflexivity|lra].
    - fold d_body. destruct (undefined_body n s old Ho Hu Hg) as [liq [gas ->]]. apply (IH _ _ old); cbn; assumption.
  Qed.

  (* the state after the first iteration: the two phases at the guess; the mixture lm, dm, the other phase lo, d_o *)
  Definition first_step (guess : R) (lm dm lo d_o : comp) : R := - excess N zs lm lo / slope N zs lm lo dm d_o.
  Lemma first_iteration guess c0 mix other lm dm lo d_o :
    mixture_to guess = Some mix -> props mix = Some (lm, dm) -> other_to guess c0 = Some other -> props other = Some (lo, d_o) ->
    rsum N (appearing zs lm lo) <> 0 -> slope N zs lm lo dm d_o <> 0 -> tol <= rsum N (fun i => Rabs (zs i - appearing zs lm lo i)) ->
    let step := - excess N zs lm lo / slope N zs lm lo dm d_o in
    let next := damped max_step guess step in
    xtol < Rabs (next - guess) ->
    exists c liq gas, d_body 0 (D Ph guess None (10 ^ 300) 0 c0 None None) = Go (D Ph next (Some guess) step 0 c liq gas) /\
      forall i, c i = appearing zs lm lo i / rsum N (appearing zs lm lo).
  Proof.
    intros Hm Hpm Ho Hpo Hn Hs Ht step next Hx. unfold d_body, Model_dewbubble.d_body. unfold mixture_to, other_to in *.
    set (ll := if bubble then lm else lo). set (lg := if bubble then lo else lm).
    set (dl := if bubble then dm else d_o). set (dg := if bubble then d_o else dm).
    set (gas := if bubble then other else mix). set (liq := if bubble then mix else other).
    cbn [d_guess]. unfold gas_comp, liquid_comp. cbn [d_comp].
    assert (Eg : gas_to guess (if bubble then c0 else zs) = Some gas) by (unfold gas; destruct bubble; assumption).
    assert (El : liquid_to guess (if bubble then zs else c0) = Some liq) by (unfold liq; destruct bubble; assumption).
    assert (Epg : props gas = Some (lg, dg)) by (unfold gas, lg, dg; destruct bubble; assumption).
    assert (Epl : props liq = Some (ll, dl)) by (unfold liq, ll, dl; destruct bubble; assumption).
    rewrite Eg, Epg, El, Epl. unfold d_update. cbn [d_fails Nat.ltb Nat.leb].
    replace (0 mod freq =? 0)%nat with true by (destruct freq; [reflexivity|rewrite Nat.mod_0_l by lia; reflexivity]).
    cbn [negb]. cbv zeta. set (w := d_raw zs bubble ll lg).
    assert (Hw : forall i, w i = appearing zs lm lo i) by (intros i; unfold w, ll, lg; rewrite d_raw_eq; destruct bubble; reflexivity).
    assert (Hr : rsum N w = rsum N (appearing zs lm lo)) by (apply rsum_ext; intros i _; apply Hw).
    assert (Hsl : d_df N bubble w dl dg = slope N zs lm lo dm d_o).
    { unfold d_df, slope. rewrite loop_rsum, Rplus_0_l. apply rsum_ext. intros i _. rewrite Hw. unfold dl, dg. destruct bubble; reflexivity. }
    rewrite Hsl, d_total_eq, d_difference_eq, Hr. fold (excess N zs lm lo). fold step. cbn [d_guess]. fold next.
    destruct (Reqb_spec (slope N zs lm lo dm d_o) 0) as [E|_]; [destruct (Hs E)|].
    rewrite (rsum_ext N (fun i => Rabs (zs i - w i)) (fun i => Rabs (zs i - appearing zs lm lo i))) by (intros i _; rewrite Hw; reflexivity).
    destruct (Rltb_spec (rsum N (fun i => Rabs (zs i - appearing zs lm lo i))) tol); [lra|].
    destruct (Reqb_spec (rsum N (appearing zs lm lo)) 0) as [E|_]; [destruct (Hn E)|].
    destruct (Rltb_spec (Rabs (next - guess)) xtol); [lra|].
    eexists. eexists. eexists. split; [reflexivity|]. intros i. cbn. rewrite Hw. reflexivity.
  Qed.

  Theorem C60_recovers_refuted maxiter guess c0 mix other lm dm lo d_o :
    mixture_to guess = Some mix -> props mix = Some (lm, dm) -> other_to guess c0 = Some other -> props other = Some (lo, d_o) ->
    rsum N (appearing zs lm lo) <> 0 -> slope N zs lm lo dm d_o <> 0 -> tol <= rsum N (fun i => Rabs (zs i - appearing zs lm lo i)) ->
    let step := - excess N zs lm lo / slope N zs lm lo dm d_o in
    let next := if Rltb step 0 then guess - Rmin max_step (- step) else guess + Rmin max_step step in
    0 <= max_step -> xtol < Rabs (next - guess) ->
    (forall c, (forall i, c i = appearing zs lm lo i / rsum N (appearing zs lm lo)) -> undefined_at next c) ->
    (0 < maxiter)%nat -> saturation maxiter guess c0 = Exn NotConverged.
  Proof.
    intros Hm Hpm Ho Hpo Hn Hs Ht step next Hms Hx Hu Hmax.
    assert (En : next = damped max_step guess step).
    { unfold next, damped, copysign. destruct (Rltb_spec step 0).
      - rewrite (Rabs_left step) by assumption. rewrite Rabs_pos_eq; [ring|]. apply Rmin_glb; lra.
      - rewrite (Rabs_pos_eq step) by lra. rewrite Rabs_pos_eq; [ring|]. apply Rmin_glb; lra. }
    rewrite En in Hx, Hu.
    destruct (first_iteration guess c0 mix other lm dm lo d_o Hm Hpm Ho Hpo Hn Hs Ht Hx) as [c [liq [gas [E Hc]]]].
    unfold saturation, Model_dewbubble.saturation. destruct maxiter as [|todo]; [lia|]. cbn [Model_dewbubble.d_iterate]. fold d_body. rewrite E. fold d_iterate.
    apply (stuck_iterate _ _ _ guess); cbn; try reflexivity; [apply Hu, Hc|exact Hx].
  Qed.
End Direct.

(* Claimed: the phases are given compositions that add to 1. Refuted: with an update frequency of 2 (or more) the composition is not
   normalised in the iterations between two updates. A gas that is only defined for compositions adding to 1, over a liquid of constant
   ratios K(v), can not be solved for unless the guess or the first Newton point is already the answer. *)
Section Frequency.
  Variables (N : nat) (zs : vec) (L dL : R -> comp) (xtol max_step tol : R) (freq maxiter : nat).
  (* a phase: true, v: the liquid at v; false: the gas *)
  Definition strict_gas (v : R) (c : comp) : option (bool * R) := if Reqb (rsum N c) 1 then Some (false, v) else None.
  Definition some_liquid (v : R) (_ : comp) : option (bool * R) := Some (true, v).
  Definition two_props (p : bool * R) : option (vec * vec) := Some (if fst p then (L (snd p), dL (snd p)) else ((fun _ => 0), (fun _ => 0))).
  Theorem C60_normalised_refuted over_P guess :
    let f v := excess N zs (L v) (fun _ => 0) in
    let df v := slope N zs (L v) (fun _ => 0) (dL v) (fun _ => 0) in
    let step := - f guess / df guess in
    let next := if Rltb step 0 then guess - Rmin max_step (- step) else guess + Rmin max_step step in
    composition N zs ->
    rsum N (appearing zs (L guess) (fun _ => 0)) <> 0 -> df guess <> 0 ->
    tol <= rsum N (fun i => Rabs (zs i - appearing zs (L guess) (fun _ => 0) i)) ->
    0 <= max_step -> xtol < Rabs (next - guess) -> f next <> 0 ->
    (2 <= freq)%nat -> (0 < maxiter)%nat ->
    saturation (bool * R) N zs strict_gas some_liquid two_props true over_P xtol max_step tol freq maxiter guess zs = Exn NotConverged.
  Proof.
    intros f df step next Hz Hn Hs Ht Hms Hx Hf Hfreq Hmax.
    assert (En : next = damped max_step guess step).
    { unfold next, damped, copysign. destruct (Rltb_spec step 0).
      - rewrite (Rabs_left step) by assumption. rewrite Rabs_pos_eq; [ring|]. apply Rmin_glb; lra.
      - rewrite (Rabs_pos_eq step) by lra. rewrite Rabs_pos_eq; [ring|]. apply Rmin_glb; lra. }
    assert (Hz1 : rsum N zs = 1) by apply Hz.
    assert (Hg : strict_gas guess zs = Some (false, guess)) by (unfold strict_gas; rewrite Hz1; destruct (Reqb_spec 1 1); [reflexivity|lra]).
    rewrite En in Hx.
    destruct (first_iteration (bool * R) N zs strict_gas some_liquid two_props true over_P xtol max_step tol freq guess zs
                (true, guess) (false, guess) (L guess) (dL guess) (fun _ => 0) (fun _ => 0) eq_refl eq_refl Hg eq_refl Hn Hs Ht Hx)
      as [c [liq [gas [E Hc]]]].
    unfold saturation. destruct maxiter as [|todo]; [lia|]. cbn [d_iterate]. rewrite E.
    fold (f guess) in Hx. fold (df guess) in Hx. fold step in Hx. fold (f guess). fold (df guess). fold step. rewrite <- En. rewrite <- En in Hx.
    destruct todo as [|todo].
    { cbn. unfold d_finish. cbn. destruct (Rltb_spec xtol (Rabs (next - guess))); [reflexivity|lra]. }
    cbn [d_iterate].
    assert (Hc1 : rsum N c = 1).
    { rewrite (rsum_ext N c (fun i => appearing zs (L guess) (fun _ => 0) i / rsum N (appearing zs (L guess) (fun _ => 0)))) by (intros i _; apply Hc).
      rewrite rsum_div_r. field. exact Hn. }
    set (w := d_raw zs true (L next) (fun _ => 0)).
    assert (E2 : d_body (bool * R) N zs strict_gas some_liquid two_props true over_P xtol max_step tol freq 1 (D (bool * R) next (Some guess) step 0 c liq gas)
             = Go (D (bool * R) next (Some guess) step 0 w (Some (true, next)) (Some (false, next)))).
    { unfold d_body, gas_comp, liquid_comp. cbn [d_guess d_comp]. unfold strict_gas at 1. rewrite Hc1. destruct (Reqb_spec 1 1); [|lra].
      unfold two_props at 1. cbn [fst snd]. unfold some_liquid at 1. unfold two_props at 1. cbn [fst snd].
      unfold d_update. cbn [d_fails Nat.ltb Nat.leb].
      replace (1 mod freq =? 0)%nat with false by (rewrite Nat.mod_1_l by lia; reflexivity).
      cbn [negb]. reflexivity. }
    rewrite E2.
    apply (stuck_iterate (bool * R) N zs strict_gas some_liquid two_props true over_P xtol max_step tol freq todo 2 _ guess); cbn; try reflexivity.
    - left. cbn. unfold strict_gas.
      assert (Hw : rsum N w = f next + 1).
      { unfold f, excess. rewrite (rsum_ext N w (appearing zs (L next) (fun _ => 0))) by (intros i _; unfold w; rewrite d_raw_eq; reflexivity). ring. }
      destruct (Reqb_spec (rsum N w) 1); [exfalso; apply Hf; lra|exact I].
    - symmetry. exact En.
    - exact Hx.
  Qed.
End Frequency.

(* the ratios K_i = m_i v^2 with sum z m = 1: the saturation point is v = 1 *)
Definition ex_z : comp := fun _ => 1 / 2.
Definition ex_m : comp := fun i => if (i =? 0)%nat then 3 / 2 else 1 / 2.
Definition ex_L (v : R) : comp := fun i => ln (ex_m i * v ^ 2).
Definition ex_dL (v : R) : comp := fun _ => 2 / v.
Lemma ex_appearing v i : 0 < v -> appearing ex_z (ex_L v) (fun _ => 0) i = ex_z i * (ex_m i * v ^ 2).
Proof.
  intros Hv. unfold appearing, ex_L. rewrite exp_0, exp_ln.
  - field.
  - apply Rmult_lt_0_compat; [unfold ex_m; destruct (i =? 0)%nat; lra|apply pow_lt, Hv].
Qed.
Lemma ex_sum v : 0 < v -> rsum 2 (appearing ex_z (ex_L v) (fun _ => 0)) = v ^ 2.
Proof. intros Hv. cbn [rsum]. rewrite !ex_appearing by exact Hv. unfold ex_z, ex_m. cbn [Nat.eqb]. field. Qed.
Lemma ex_slope v : 0 < v -> slope 2 ex_z (ex_L v) (fun _ => 0) (ex_dL v) (fun _ => 0) = 2 * v.
Proof. intros Hv. unfold slope. cbn [rsum]. rewrite !ex_appearing by exact Hv. unfold ex_z, ex_m, ex_dL. cbn [Nat.eqb]. field. lra. Qed.
Lemma ex_diff v : 0 < v -> 1 / 4 * v ^ 2 <= rsum 2 (fun i => Rabs (ex_z i - appearing ex_z (ex_L v) (fun _ => 0) i)).
Proof.
  intros Hv. cbn [rsum]. rewrite !ex_appearing by exact Hv. unfold ex_z, ex_m. cbn [Nat.eqb].
  pose proof (Rle_abs (1 / 2 - 1 / 2 * (1 / 2 * v ^ 2))). pose proof (Rle_abs (- (1 / 2 - 1 / 2 * (3 / 2 * v ^ 2)))) as H2. rewrite Rabs_Ropp in H2. nra.
Qed.
Lemma ex_composition : composition 2 ex_z.
Proof. split; [intros i _; unfold ex_z; lra|cbn; unfold ex_z; lra]. Qed.

(* the bubble point is returned from itself, by bubble_T and by bubble_P *)
Example C60_answer_hypotheses_met over_P maxiter : (1 < maxiter)%nat -> exists c l g,
  saturation (bool * R) 2 ex_z (fun v _ => Some (false, v)) some_liquid (two_props ex_L ex_dL) true over_P (/ 10 ^ 10) 5 (/ 10 ^ 4) 1 maxiter 1 ex_z
    = Ret (1, c, l, g, 0%nat, 0) /\ c 0%nat = 3 / 4.
Proof.
  intros Hmax. unfold saturation. destruct maxiter as [|todo]; [lia|]. cbn [d_iterate]. unfold d_body, gas_comp, liquid_comp. cbn [d_guess d_comp].
  unfold two_props at 1. cbn [fst snd]. unfold some_liquid at 1. unfold two_props at 1. cbn [fst snd].
  unfold d_update. cbn [d_fails Nat.ltb Nat.leb Nat.modulo Nat.divmod Nat.sub Nat.eqb negb snd d_guess]. cbv zeta.
  set (w := d_raw ex_z true (ex_L 1) (fun _ => 0)).
  assert (Hw : forall i, w i = appearing ex_z (ex_L 1) (fun _ => 0) i) by (intros i; unfold w; rewrite d_raw_eq; reflexivity).
  assert (Ht : d_total 2 w = 1).
  { rewrite d_total_eq, (rsum_ext 2 w (appearing ex_z (ex_L 1) (fun _ => 0))) by (intros i _; apply Hw). rewrite ex_sum by lra. ring. }
  assert (Hd : d_df 2 true w (ex_dL 1) (fun _ => 0) = 2).
  { unfold d_df. rewrite loop_rsum, Rplus_0_l.
    transitivity (slope 2 ex_z (ex_L 1) (fun _ => 0) (ex_dL 1) (fun _ => 0)); [|rewrite ex_slope; lra].
    unfold slope. apply rsum_ext. intros i _. rewrite Hw. reflexivity. }
  assert (Hdiff : 1 / 4 <= d_difference 2 ex_z w).
  { rewrite d_difference_eq. rewrite (rsum_ext 2 (fun i => Rabs (ex_z i - w i)) (fun i => Rabs (ex_z i - appearing ex_z (ex_L 1) (fun _ => 0) i)))
      by (intros i _; rewrite Hw; reflexivity). pose proof (ex_diff 1). lra. }
  rewrite Hd, Ht. destruct (Reqb_spec 2 0); [lra|]. destruct (Rltb_spec (d_difference 2 ex_z w) (/ 10 ^ 4)) as [H|_].
  { exfalso. assert (/ 10 ^ 4 < 1 / 4) by (replace (10 ^ 4) with 10000 by ring; lra). lra. }
  destruct (Reqb_spec 1 0); [lra|].
  assert (E0 : damped 5 1 (- (1 - 1) / 2) = 1).
  { unfold damped, copysign. replace (- (1 - 1) / 2) with 0 by field. rewrite Rabs_R0, Rmin_right by lra. destruct (Rltb_spec 0 0); [lra|]. rewrite Rabs_R0. ring. }
  assert (Hp : 0 < / 10 ^ 10) by (apply Rinv_0_lt_compat, pow_lt; lra).
  rewrite E0, Rminus_diag_eq, Rabs_R0 by reflexivity. destruct (Rltb_spec 0 (/ 10 ^ 10)); [|lra].
  unfold d_finish. cbn [d_old d_guess d_comp d_liquid d_gas]. rewrite Rminus_diag_eq, Rabs_R0 by reflexivity. destruct (Rltb_spec (/ 10 ^ 10) 0); [lra|].
  eexists. eexists. eexists. split; [reflexivity|]. cbv beta. rewrite Hw, ex_appearing by lra. unfold ex_z, ex_m. cbn [Nat.eqb]. field.
Qed.
Lemma ex_next : (if Rltb (- excess 2 ex_z (ex_L 2) (fun _ => 0) / slope 2 ex_z (ex_L 2) (fun _ => 0) (ex_dL 2) (fun _ => 0)) 0
  then 2 - Rmin 5 (- (- excess 2 ex_z (ex_L 2) (fun _ => 0) / slope 2 ex_z (ex_L 2) (fun _ => 0) (ex_dL 2) (fun _ => 0)))
  else 2 + Rmin 5 (- excess 2 ex_z (ex_L 2) (fun _ => 0) / slope 2 ex_z (ex_L 2) (fun _ => 0) (ex_dL 2) (fun _ => 0))) = 5 / 4.
Proof.
  unfold excess. rewrite ex_sum, ex_slope by lra. replace (- (2 ^ 2 - 1) / (2 * 2)) with (- (3 / 4)) by field.
  destruct (Rltb_spec (- (3 / 4)) 0); [|lra]. rewrite Rmin_right by lra. lra.
Qed.
(* a liquid that does not exist at or below 5/4: from 2 the step leads there, and there is no answer *)
Example C60_recovers_hypotheses_met over_P maxiter : (0 < maxiter)%nat ->
  saturation (bool * R) 2 ex_z (fun v _ => Some (false, v)) (fun v _ => if Rleb v (5 / 4) then None else Some (true, v)) (two_props ex_L ex_dL) true over_P
    (/ 10 ^ 10) 5 (/ 10 ^ 4) 1 maxiter 2 ex_z = Exn NotConverged.
Proof.
  intros Hmax. assert (Hp : / 10 ^ 10 < 1 / 2) by (rewrite <- (Rinv_involutive (1 / 2)) by lra; apply Rinv_lt_contravar; [apply Rmult_lt_0_compat; [lra|apply pow_lt; lra]|]; simpl; lra).
  apply (C60_recovers_refuted (bool * R)) with (mix := (true, 2)) (other := (false, 2)) (lm := ex_L 2) (dm := ex_dL 2) (lo := fun _ => 0) (d_o := fun _ => 0);
    try reflexivity; try exact Hmax.
  - cbn. destruct (Rleb_spec 2 (5 / 4)); [lra|reflexivity].
  - rewrite ex_sum by lra. lra.
  - rewrite ex_slope by lra. lra.
  - pose proof (ex_diff 2). assert (/ 10 ^ 4 < 1) by (replace (10 ^ 4) with 10000 by ring; lra). lra.
  - lra.
  - rewrite ex_next. rewrite Rabs_left by lra. lra.
  - intros c _. rewrite ex_next. right. cbn. destruct (Rleb_spec (5 / 4) (5 / 4)); [exact I|lra].
Qed.
Example C60_normalised_hypotheses_met over_P freq maxiter : (2 <= freq)%nat -> (0 < maxiter)%nat ->
  saturation (bool * R) 2 ex_z (strict_gas 2) some_liquid (two_props ex_L ex_dL) true over_P (/ 10 ^ 10) 5 (/ 10 ^ 4) freq maxiter 2 ex_z = Exn NotConverged.
Proof.
  intros Hf Hmax. assert (Hp : / 10 ^ 10 < 1 / 2) by (rewrite <- (Rinv_involutive (1 / 2)) by lra; apply Rinv_lt_contravar; [apply Rmult_lt_0_compat; [lra|apply pow_lt; lra]|]; simpl; lra).
  apply C60_normalised_refuted; try exact Hmax; try exact Hf.
  - exact ex_composition.
  - rewrite ex_sum by lra. lra.
  - rewrite ex_slope by lra. lra.
  - pose proof (ex_diff 2). assert (/ 10 ^ 4 < 1) by (replace (10 ^ 4) with 10000 by ring; lra). lra.
  - lra.
  - rewrite ex_next. rewrite Rabs_left by lra. lra.
  - rewrite ex_next. unfold excess. rewrite ex_sum by lra. lra.
Qed.
