(* C59: bubble and dew points of a mixture (dew_bubble_Michelsen_Mollerup). *)
From Coq Require Import Reals List Bool Arith Lra Lia ZArith.
From Coquelicot Require Import Coquelicot.
From Verif Require Import Base BaseFacts Spec_split Spec_saturation Model_dewbubble.
Open Scope R_scope.

Lemma K_appearing zs lc li i : zs i * K_of lc li i = appearing zs lc li i.
Proof. unfold K_of, appearing, Rdiv. rewrite Rmult_assoc. f_equal. unfold Rminus. rewrite exp_plus, exp_Ropp. reflexivity. Qed.
Lemma total_eq N zs lc li : total N zs (K_of lc li) = rsum N (appearing zs lc li).
Proof. unfold total, raw. rewrite loop_rsum, Rplus_0_l. apply rsum_ext. intros i _. apply K_appearing. Qed.
Lemma f_k_eq N zs lc li : f_k N zs (K_of lc li) = excess N zs lc li.
Proof. unfold f_k, excess. rewrite loop_rsum, Rplus_0_l. f_equal. apply rsum_ext. intros i _. apply K_appearing. Qed.
Lemma df_k_eq N zs lc li dc di : df_k N zs (K_of lc li) dc di = slope N zs lc li dc di.
Proof. unfold df_k, slope. rewrite loop_rsum, Rplus_0_l. apply rsum_ext. intros i _. rewrite K_appearing. reflexivity. Qed.
Lemma copysign_abs a s : Rabs (copysign a s) = Rabs a.
Proof. unfold copysign. destruct (Rltb s 0); rewrite ?Rabs_Ropp; apply Rabs_Rabsolu. Qed.

Section Saturation.
  Variable Ph : Type.
  Variables (N : nat) (zs : vec).
  Variables (const_to : R -> option Ph) (iter_to : R -> vec -> option Ph) (props : Ph -> option (vec * vec)).
  Variables (V : Ph -> R) (lab : Ph -> label) (split0 : Ph -> option R) (bubble : bool).
  Variables (xtol max_step : R) (freq : nat) (V_diff : option R) (damping0 : R).
  Let body := body Ph N zs const_to iter_to props V lab split0 bubble xtol max_step freq V_diff damping0.
  Let iterate := iterate Ph N zs const_to iter_to props V lab split0 bubble xtol max_step freq V_diff damping0.
  Let dew_bubble := dew_bubble Ph N zs const_to iter_to props V lab split0 bubble xtol max_step freq V_diff damping0.
  Let adjust := adjust Ph const_to iter_to props V lab split0 bubble V_diff.
  Let update := update Ph N zs V xtol max_step freq V_diff damping0.

  (* what is true of an answer: both phases are at the answer; the composition returned has the fugacities of the mixture up to a common
     factor and adds to 1; the (damped) Newton step from the answer is shorter than the tolerance; in any iteration but the first the two
     compositions differ by the trivial solution tolerance, unless the mixture is a pure component *)
  Definition is_saturation (tol v : R) (c : comp) (it co : Ph) (n : nat) : Prop :=
    exists c0 lc dc li di d,
      const_to v = Some co /\ props co = Some (lc, dc) /\ iter_to v c0 = Some it /\ props it = Some (li, di) /\
      rsum N (appearing zs lc li) <> 0 /\ slope N zs lc li dc di <> 0 /\
      (forall i, c i = appearing zs lc li i / rsum N (appearing zs lc li)) /\
      (d = damping0 \/ d = 0.15) /\
      (let s := Rabs (excess N zs lc li / slope N zs lc li dc di) in
       Rabs (Rmin (max_step * v) (Rmin s (s * d))) < xtol \/
       (v <= Rabs (Rmin (max_step * v) (Rmin s (s * d))) < 2 * xtol)) /\
      (n = 0%nat \/ tol <= rsum N (fun i => Rabs (zs i - c i)) \/ exists i, (i < N)%nat /\ zs i = 1).

  (* adjusted phases are both at the adjusted value *)
  Lemma adjust_sync guess skip damp s it co lc dc guess' skip' damp' it' co' lc' dc' :
    const_to guess = Some co -> props co = Some (lc, dc) -> iter_to guess (g_comp Ph s) = Some it ->
    adjust guess skip damp s it co lc dc = (guess', skip', damp', Some (it', co', lc', dc')) ->
    const_to guess' = Some co' /\ props co' = Some (lc', dc') /\ iter_to guess' (g_comp Ph s) = Some it' /\ (damp' = damp \/ damp' = 0.15).
  Proof.
    intros Hc Hp Hi. unfold adjust, Model_dewbubble.adjust.
    assert (Hkeep : (guess, skip, damp, Some (it, co, lc, dc)) = (guess', skip', damp', Some (it', co', lc', dc')) ->
      const_to guess' = Some co' /\ props co' = Some (lc', dc') /\ iter_to guess' (g_comp Ph s) = Some it' /\ (damp' = damp \/ damp' = 0.15)).
    { intros E. injection E. intros. subst. auto. }
    destruct V_diff as [d|]; [|exact Hkeep].
    destruct (adjusts _ _ _ _ _ _ _); [|exact Hkeep].
    destruct (if same_label (lab it) (unwanted bubble) then Some it else if same_label (lab co) (expect bubble) then Some co else None) as [p|]; [|exact Hkeep].
    destruct (skip <? 0)%Z.
    - destruct (moved _ _ _ p) as [sp|]; [|discriminate].
      destruct (iter_to sp (g_comp Ph s)) as [i1|] eqn:E1; [|discriminate].
      destruct (const_to sp) as [c1|] eqn:E2; [|discriminate].
      destruct (props c1) as [[l1 d1]|] eqn:E3; [|discriminate].
      intros E. injection E. intros. subst. auto.
    - destruct (moved _ _ _ p) as [sp|]; [|discriminate].
      destruct (iter_to sp (g_comp Ph s)) as [i1|] eqn:E1; [|discriminate].
      destruct (const_to sp) as [c1|] eqn:E2; [|discriminate].
      destruct (props c1) as [[l1 d1]|] eqn:E3; [|discriminate].
      intros E. injection E. intros. subst. auto.
  Qed.
  Lemma adjust_damp guess skip damp s it co lc dc : let '(_, _, damp', _) := adjust guess skip damp s it co lc dc in damp' = damp \/ damp' = 0.15.
  Proof.
    unfold adjust, Model_dewbubble.adjust. destruct V_diff as [d|]; auto.
    destruct (adjusts _ _ _ _ _ _ _); auto.
    destruct (if same_label (lab it) (unwanted bubble) then Some it else if same_label (lab co) (expect bubble) then Some co else None) as [p|]; auto.
    destruct (skip <? 0)%Z; destruct (moved _ _ _ p) as [sp|]; auto;
    destruct (iter_to sp (g_comp Ph s)); auto; destruct (const_to sp) as [c1|]; auto; destruct (props c1) as [[? ?]|]; auto.
  Qed.

  (* every pass keeps the damping one of the two values, and the trivial solution tolerance the one given or, for a pure component, -1 *)
  Definition inv (tol : R) (s : gst Ph) : Prop :=
    (g_damp Ph s = damping0 \/ g_damp Ph s = 0.15) /\ (g_tol Ph s = tol \/ exists i, (i < N)%nat /\ zs i = 1).
  Lemma has_pure_true : has_pure N zs = true -> exists i, (i < N)%nat /\ zs i = 1.
  Proof.
    unfold has_pure. intros H. apply existsb_exists in H as [i [Hi Hz]]. exists i. split.
    - apply in_seq in Hi. lia.
    - destruct (Reqb_spec (zs i) 1); [assumption|discriminate].
  Qed.
  Lemma update_inv tol n s guess skip damp it co lc dc li di : inv tol s -> damp = damping0 \/ damp = 0.15 ->
    match update n s guess skip damp it co lc dc li di with Go s' => inv tol s' | _ => True end.
  Proof.
    intros [_ Ht] Hd. unfold update, Model_dewbubble.update.
    destruct (2 <? g_fails Ph s)%nat; [exact I|].
    destruct (Reqb (total N zs (K_of lc li)) 0); [exact I|].
    destruct (negb (n mod freq =? 0)%nat); [split; [exact Hd|exact Ht]|].
    cbv zeta. destruct (Reqb (df_k _ _ _ _ _) 0); [exact I|].
    match goal with |- context [if ?b && has_pure N zs then _ else _] => set (low := b) end.
    destruct (low && Rltb _ _); [exact I|].
    destruct (Rltb _ xtol); [exact I|].
    split; cbn.
    - destruct (skip =? 0)%Z; auto.
    - destruct low; cbn; [|exact Ht]. destruct (has_pure N zs) eqn:Hp; [right; apply has_pure_true, Hp|exact Ht].
  Qed.
  Lemma body_inv tol n s : inv tol s -> match body n s with Go s' => inv tol s' | _ => True end.
  Proof.
    intros Hs. pose proof Hs as [Hd Ht]. unfold body, Model_dewbubble.body.
    assert (Hh : forall g k d i c, d = damping0 \/ d = 0.15 -> match handler Ph max_step s g k d i c with Go s' => inv tol s' | _ => True end).
    { intros. unfold handler. destruct (g_old Ph s); [|exact I]. split; [assumption|exact Ht]. }
    destruct (const_to _) as [co|]; [|apply Hh, Hd].
    destruct (props co) as [[lc dc]|]; [|apply Hh, Hd].
    destruct (iter_to _ _) as [it|]; [|apply Hh, Hd].
    pose proof (adjust_damp (g_guess Ph s) (g_skip Ph s - 1)%Z (g_damp Ph s) s it co lc dc) as Ha. unfold adjust in Ha.
    destruct (Model_dewbubble.adjust _ _ _ _ _ _ _ _ _ _ _ _ _ _ _ _ _) as [[[g k] d] ph].
    assert (Hd' : d = damping0 \/ d = 0.15) by (destruct Ha as [->| ->]; auto).
    destruct ph as [[[[it' co'] lc'] dc']|]; [|apply Hh, Hd'].
    destruct (props it') as [[li di]|]; [|apply Hh, Hd'].
    apply update_inv; assumption.
  Qed.

  Lemma update_break tol n s guess skip damp it co lc dc li di s' : inv tol s -> damp = damping0 \/ damp = 0.15 ->
    const_to guess = Some co -> props co = Some (lc, dc) -> iter_to guess (g_comp Ph s) = Some it -> props it = Some (li, di) ->
    update n s guess skip damp it co lc dc li di = Break s' ->
    g_old Ph s' = Some (g_guess Ph s') /\ is_saturation tol (g_guess Ph s') (g_comp Ph s') (g_iter Ph s') (g_const Ph s') n.
  Proof.
    intros [_ Ht] Hd Hc Hpc Hi Hpi. unfold update, Model_dewbubble.update.
    destruct (2 <? g_fails Ph s)%nat; [discriminate|].
    destruct (Reqb_spec (total N zs (K_of lc li)) 0) as [|Hn]; [discriminate|].
    destruct (negb (n mod freq =? 0)%nat); [discriminate|].
    cbv zeta. destruct (Reqb_spec (df_k N zs (K_of lc li) dc di) 0) as [|Hdf]; [discriminate|].
    set (c := fun i => raw zs (K_of lc li) i / total N zs (K_of lc li)).
    set (damp' := if (skip =? 0)%Z then damping0 else damp).
    assert (Hd' : damp' = damping0 \/ damp' = 0.15) by (unfold damp'; destruct (skip =? 0)%Z; auto).
    destruct (_ && Rltb (comp_difference N zs c) _) eqn:Et; [discriminate|].
    destruct (Rltb_spec (Rabs (guess + adj_step max_step guess (- f_k N zs (K_of lc li) / df_k N zs (K_of lc li) dc di) damp' - guess)) xtol) as [Hx|]; [|discriminate].
    intros E. injection E. intros <-. cbn. split; [reflexivity|].
    rewrite total_eq in Hn. rewrite df_k_eq in Hdf, Hx. rewrite f_k_eq in Hx.
    exists (g_comp Ph s), lc, dc, li, di, damp'. splits; try assumption.
    - intros i. unfold c. rewrite total_eq. f_equal. unfold raw. apply K_appearing.
    - cbv zeta. replace (Rabs (excess N zs lc li / slope N zs lc li dc di)) with (Rabs (- excess N zs lc li / slope N zs lc li dc di))
        by (unfold Rdiv; rewrite Ropp_mult_distr_l_reverse, Rabs_Ropp; reflexivity).
      set (st := - excess N zs lc li / slope N zs lc li dc di) in *. unfold adj_step in Hx.
      set (m := Rmin (max_step * guess) (Rmin (Rabs st) (Rabs st * damp'))) in *.
      replace (guess + _ - guess) with (if Rleb (guess + copysign m st) 0 then copysign m st * 0.5 else copysign m st) in Hx
        by (destruct (Rleb _ 0); ring).
      destruct (Rleb_spec (guess + copysign m st) 0) as [Hl|Hl].
      + right. rewrite Rabs_mult, copysign_abs in Hx. rewrite (Rabs_pos_eq 0.5) in Hx by lra. split; [|lra].
        rewrite <- (copysign_abs m st). pose proof (Rle_abs (- copysign m st)). rewrite Rabs_Ropp in H. lra.
      + left. rewrite copysign_abs in Hx. exact Hx.
    - destruct (Nat.eq_dec n 0) as [|Hn0]; [left; assumption|right].
      destruct Ht as [Ht|Ht]; [|right; exact Ht]. rewrite Ht in Et.
      assert (E0 : comp_difference N zs c = rsum N (fun i => Rabs (zs i - c i))) by (unfold comp_difference; rewrite loop_rsum; ring).
      rewrite E0 in Et.
      destruct (Rltb_spec (rsum N (fun i => Rabs (zs i - c i))) tol) as [Hlt|Hge]; [|left; lra].
      right. replace (n =? 0)%nat with false in Et by (symmetry; apply Nat.eqb_neq; exact Hn0). cbn in Et.
      destruct (has_pure N zs) eqn:Hp; [apply has_pure_true, Hp|].
      destruct (Rltb_spec (rsum N (fun i => Rabs (zs i - c i))) tol); [discriminate|lra].
  Qed.
  Lemma body_break tol n s s' : inv tol s -> body n s = Break s' ->
    g_old Ph s' = Some (g_guess Ph s') /\ is_saturation tol (g_guess Ph s') (g_comp Ph s') (g_iter Ph s') (g_const Ph s') n.
  Proof.
    intros Hs. unfold body, Model_dewbubble.body.
    assert (Hh : forall g k d i c, handler Ph max_step s g k d i c = Break s' -> False).
    { intros g k d i c. unfold handler. destruct (g_old Ph s); discriminate. }
    destruct (const_to _) as [co|] eqn:Ec; [|intros H; destruct (Hh _ _ _ _ _ H)].
    destruct (props co) as [[lc dc]|] eqn:Ep; [|intros H; destruct (Hh _ _ _ _ _ H)].
    destruct (iter_to _ _) as [it|] eqn:Ei; [|intros H; destruct (Hh _ _ _ _ _ H)].
    pose proof (adjust_sync (g_guess Ph s) (g_skip Ph s - 1)%Z (g_damp Ph s) s it co lc dc) as Ha. unfold adjust in Ha.
    destruct (Model_dewbubble.adjust _ _ _ _ _ _ _ _ _ _ _ _ _ _ _ _ _) as [[[g k] d] ph].
    destruct ph as [[[[it' co'] lc'] dc']|]; [|intros H; destruct (Hh _ _ _ _ _ H)].
    destruct (Ha g k d it' co' lc' dc' Ec Ep Ei eq_refl) as [A1 [A2 [A3 A4]]].
    destruct (props it') as [[li di]|] eqn:Epi; [|intros H; destruct (Hh _ _ _ _ _ H)].
    apply update_break; try assumption. destruct Hs as [Hd _]. destruct A4 as [->| ->]; auto.
  Qed.

  Lemma iterate_answer tol todo : forall n s v c it co k err, inv tol s -> iterate todo n s = Ret (v, c, it, co, k, err) ->
    (S k < n + todo)%nat -> err = 0 /\ is_saturation tol v c it co k.
  Proof.
    induction todo as [|todo IH]; intros n s v c it co k err Hs; cbn.
    - unfold finish. destruct (g_old Ph s); [|discriminate]. destruct (Rltb _ _); [discriminate|]. intros E. injection E. intros. subst. lia.
    - fold body. destruct (body n s) as [s'|s'|e] eqn:Eb; [| |discriminate].
      + intros E Hk. eapply IH; [|exact E|lia]. pose proof (body_inv tol n s Hs). rewrite Eb in H. exact H.
      + destruct (body_break tol n s s' Hs Eb) as [Ho Hb]. unfold finish. rewrite Ho.
        destruct (Rltb _ _); [discriminate|]. intros E _. injection E. intros <- <- <- <- <- <-.
        split; [rewrite Rminus_diag_eq by reflexivity; apply Rabs_R0|exact Hb].
  Qed.

  (* C59 *)
  Theorem C59_answer maxiter guess c0 tol it0 co0 v c it co n err :
    dew_bubble maxiter guess c0 tol it0 co0 = Ret (v, c, it, co, n, err) -> (S n < maxiter)%nat ->
    err = 0 /\ is_saturation tol v c it co n.
  Proof. intros H Hn. eapply iterate_answer; [|exact H|exact Hn]. split; cbn; auto. Qed.

  (* with the usual settings (damping between 0.15 and 1, an answer well above the tolerance) the saturation condition holds to
     xtol/0.15 times its slope *)
  Theorem C59_residual maxiter guess c0 tol it0 co0 v c it co n err :
    0 < xtol -> 0.15 <= damping0 <= 1 -> 2 * xtol <= v -> xtol <= max_step * v ->
    dew_bubble maxiter guess c0 tol it0 co0 = Ret (v, c, it, co, n, err) -> (S n < maxiter)%nat ->
    exists w lc dc li di, const_to v = Some co /\ props co = Some (lc, dc) /\ iter_to v w = Some it /\ props it = Some (li, di) /\
      0.15 * Rabs (excess N zs lc li) < xtol * Rabs (slope N zs lc li dc di) /\
      rsum N c = 1 /\
      forall i, c i * exp (li i) * (1 + excess N zs lc li) = zs i * exp (lc i).
  Proof.
    intros Hx Hd Hv Hm H Hn. destruct (C59_answer _ _ _ _ _ _ _ _ _ _ _ _ H Hn) as [_ [w [lc [dc [li [di [d [A1 [A2 [A3 [A4 [A5 [A6 [A7 [A8 [A9 _]]]]]]]]]]]]]]]].
    exists w, lc, dc, li, di. splits; try assumption.
    - cbv zeta in A9. set (s := Rabs (excess N zs lc li / slope N zs lc li dc di)) in *.
      assert (Hs : 0 <= s) by apply Rabs_pos.
      assert (Hd1 : 0.15 <= d <= 1) by (destruct A8; subst; lra).
      assert (E : Rmin s (s * d) = s * d) by (apply Rmin_right; nra). rewrite E in A9.
      assert (Hsd : 0 <= s * d) by nra.
      assert (Hpos : 0 <= Rmin (max_step * v) (s * d)) by (apply Rmin_glb; lra).
      rewrite (Rabs_pos_eq _ Hpos) in A9.
      assert (Hlt : s * d < xtol).
      { destruct A9 as [A9|[B1 B2]]; [|lra]. unfold Rmin in A9. destruct (Rle_dec (max_step * v) (s * d)); lra. }
      assert (H15 : 0.15 * s < xtol) by nra.
      assert (Hpd : 0 < Rabs (slope N zs lc li dc di)) by (apply Rabs_pos_lt; exact A6).
      assert (Es : Rabs (excess N zs lc li) = s * Rabs (slope N zs lc li dc di)).
      { unfold s. rewrite <- Rabs_mult. f_equal. field. exact A6. }
      rewrite Es. nra.
    - rewrite (rsum_ext N c (fun i => appearing zs lc li i / rsum N (appearing zs lc li))) by (intros i _; apply A7).
      rewrite rsum_div_r. field. exact A5.
    - intros i. rewrite A7. unfold excess. replace (1 + (rsum N (appearing zs lc li) - 1)) with (rsum N (appearing zs lc li)) by ring.
      unfold appearing at 1. field. split; [pose proof (exp_pos (li i)); lra|exact A5].
  Qed.

  (* when the two phases have the same volume (to V_diff) and the one that should appear is of the wrong kind, or else the mixture is of
     the kind that should appear, both are moved to the boundary where that phase begins to exist, a little to its other side *)
  Theorem C59_boundary guess skip damp s it co lc dc d p b it' co' lc' dc' :
    V_diff = Some d -> 1 - d < V it / V co < 1 + d ->
    (lab it = (if bubble then Lliq else Lgas) /\ p = it) \/
    (lab it <> (if bubble then Lliq else Lgas) /\ lab co = (if bubble then Lgas else Lliq) /\ p = co) ->
    split0 p = Some b ->
    let b' := if bubble then b * (1 - / 10 ^ 9) else b * (1 + / 10 ^ 9) in
    iter_to b' (g_comp Ph s) = Some it' -> const_to b' = Some co' -> props co' = Some (lc', dc') ->
    exists skip' damp', adjust guess skip damp s it co lc dc = (b', skip', damp', Some (it', co', lc', dc')).
  Proof.
    intros Hd Hr Hp Hb b' Hi Hc Hpr. unfold adjust, Model_dewbubble.adjust. rewrite Hd.
    assert (Ha : adjusts Ph V d skip (g_vlast Ph s) it co = true).
    { unfold adjusts. destruct (Rltb_spec (1 - d) (V it / V co)); [|lra]. destruct (Rltb_spec (V it / V co) (1 + d)); [|lra]. reflexivity. }
    rewrite Ha.
    assert (Hw : (if same_label (lab it) (unwanted bubble) then Some it else if same_label (lab co) (expect bubble) then Some co else None) = Some p).
    { unfold unwanted, expect. destruct Hp as [[-> ->]|[Hn [-> ->]]].
      - destruct bubble; reflexivity.
      - replace (same_label (lab it) (if bubble then Lliq else Lgas)) with false.
        + destruct bubble; reflexivity.
        + destruct (lab it), bubble; try reflexivity; destruct (Hn eq_refl). }
    rewrite Hw.
    assert (Hm : moved Ph split0 bubble p = Some b') by (unfold moved, b'; rewrite Hb; destruct bubble; f_equal; lra).
    rewrite Hm, Hi, Hc, Hpr. destruct (skip <? 0)%Z; eexists; eexists; reflexivity.
  Qed.
  (* phases of different volume and of the kinds expected are left where they are *)
  Theorem C59_no_boundary guess skip damp s it co lc dc :
    lab it = (if bubble then Lgas else Lliq) -> lab co = (if bubble then Lliq else Lgas) ->
    adjust guess skip damp s it co lc dc = (guess, skip, damp, Some (it, co, lc, dc)).
  Proof.
    intros Hi Hc. unfold adjust, Model_dewbubble.adjust. destruct V_diff; [|reflexivity]. destruct (adjusts _ _ _ _ _ _ _); [|reflexivity].
    rewrite Hi, Hc. unfold unwanted, expect. destruct bubble; reflexivity.
  Qed.
End Saturation.

(* Claimed: after a failed evaluation another point is tried. Refuted: when a full Newton step (not limited) leads to a point where the
   mixture has no such phase, the same point is tried in every remaining iteration, whatever maxiter is. *)
Section Stuck.
  Variable Ph : Type.
  Variables (N : nat) (zs : vec).
  Variables (const_to : R -> option Ph) (iter_to : R -> vec -> option Ph) (props : Ph -> option (vec * vec)).
  Variables (V : Ph -> R) (lab : Ph -> label) (split0 : Ph -> option R) (bubble : bool).
  Variables (xtol max_step : R) (freq : nat).
  Let dew_bubble := dew_bubble Ph N zs const_to iter_to props V lab split0 bubble xtol max_step freq None 1.

  Lemma copysign_id s m : copysign (Rabs s) s = s /\ (Rabs s <= m -> Rmin m (Rabs s) = Rabs s).
  Proof.
    split; [|apply Rmin_right]. unfold copysign. rewrite Rabs_Rabsolu. destruct (Rltb_spec s 0).
    - rewrite Rabs_left by assumption. ring.
    - apply Rabs_pos_eq. lra.
  Qed.
  Lemma stuck_iterate todo : forall n s old, g_old Ph s = Some old -> const_to (g_guess Ph s) = None ->
    old + g_step Ph s = g_guess Ph s -> Rabs (g_step Ph s) <= max_step * g_guess Ph s -> xtol < Rabs (g_step Ph s) ->
    iterate Ph N zs const_to iter_to props V lab split0 bubble xtol max_step freq None 1 todo n s = Exn NotConverged.
  Proof.
    induction todo as [|todo IH]; intros n s old Ho Hc Hg Hm Hx; cbn.
    - unfold finish. rewrite Ho. replace (g_guess Ph s - old) with (g_step Ph s) by lra.
      destruct (Rltb_spec xtol (Rabs (g_step Ph s))); [reflexivity|lra].
    - unfold body. rewrite Hc. unfold handler. rewrite Ho.
      destruct (copysign_id (g_step Ph s) (max_step * g_guess Ph s)) as [C1 C2]. rewrite C2, C1 by exact Hm. rewrite Hg.
      apply (IH _ _ old); cbn; try assumption. reflexivity.
  Qed.
  Theorem C59_recovers_refuted maxiter guess c0 tol it0 co0 it co lc dc li di :
    const_to guess = Some co -> props co = Some (lc, dc) -> iter_to guess c0 = Some it -> props it = Some (li, di) ->
    rsum N (appearing zs lc li) <> 0 -> slope N zs lc li dc di <> 0 ->
    let step := - excess N zs lc li / slope N zs lc li dc di in
    xtol < Rabs step -> Rabs step <= max_step * guess -> Rabs step <= max_step * (guess + step) -> 0 < guess + step ->
    const_to (guess + step) = None ->
    (0 < maxiter)%nat -> dew_bubble maxiter guess c0 tol it0 co0 = Exn NotConverged.
  Proof.
    intros Hc Hpc Hi Hpi Hn Hs step Hx Hm Hm' Hpos Hf Hmax. unfold dew_bubble, Model_dewbubble.dew_bubble.
    destruct maxiter as [|todo]; [lia|]. cbn [iterate]. unfold body. cbn [g_guess g_comp]. rewrite Hc, Hpc, Hi. cbn [adjust]. rewrite Hpi.
    unfold update. cbn [g_fails Nat.ltb Nat.leb].
    destruct (Reqb_spec (total N zs (K_of lc li)) 0) as [E|_]; [rewrite total_eq in E; destruct (Hn E)|].
    replace (0 mod freq =? 0)%nat with true by (destruct freq; [reflexivity|rewrite Nat.mod_0_l by lia; reflexivity]).
    cbn [negb]. cbv zeta.
    destruct (Reqb_spec (df_k N zs (K_of lc li) dc di) 0) as [E|_]; [rewrite df_k_eq in E; destruct (Hs E)|].
    cbn [Nat.eqb negb]. rewrite Bool.andb_false_r. cbn [andb].
    rewrite df_k_eq, f_k_eq. fold step. cbn [g_skip g_damp].
    replace (if (0 - 1 =? 0)%Z then 1 else 1) with 1 by reflexivity.
    assert (Ea : adj_step max_step guess step 1 = step).
    { unfold adj_step. rewrite Rmult_1_r, (Rmin_left (Rabs step) (Rabs step)) by lra.
      destruct (copysign_id step (max_step * guess)) as [C1 C2]. rewrite C2, C1 by exact Hm.
      destruct (Rleb_spec (guess + step) 0); [lra|reflexivity]. }
    rewrite Ea. replace (guess + step - guess) with step by ring.
    destruct (Rltb_spec (Rabs step) xtol); [lra|].
    apply (stuck_iterate _ _ _ guess); cbn; try assumption; reflexivity.
  Qed.
End Stuck.

(* a family of phases at a point v: Some v; the mixture has ln phi_i = ln (m_i v), the phase that appears has ln phi_i = 0: the ratios
   are K_i = m_i v and the saturation condition of z is v * sum z m = 1 *)
Definition ex_props (m : comp) (p : R * bool) : option (vec * vec) :=
  Some (if snd p then ((fun i => ln (m i * fst p)), (fun _ => / fst p)) else ((fun _ => 0), (fun _ => 0))).
Definition ex_const (lo : R) (v : R) : option (R * bool) := if Rleb v lo then None else Some (v, true).
Definition ex_iter (v : R) (_ : comp) : option (R * bool) := Some (v, false).
Definition ex_run (lo : R) (m z : comp) := dew_bubble (R * bool) 2 z (ex_const lo) ex_iter (ex_props m) (fun _ => 1) (fun _ => Lboth)
  (fun _ => None) true (/ 10 ^ 10) 0.25 1 None 1.
Lemma ex_appearing (m z : comp) v i : 0 < m i -> 0 < v -> appearing z (fun i => ln (m i * v)) (fun _ => 0) i = z i * (m i * v).
Proof. intros Hm Hv. unfold appearing. rewrite exp_0, exp_ln by (apply Rmult_lt_0_compat; assumption). field. Qed.
Definition ex_z : comp := fun _ => 1 / 2.
Definition ex_m : comp := fun i => if (i =? 0)%nat then 3 / 2 else 1 / 2.
Lemma ex_m_pos i : 0 < ex_m i. Proof. unfold ex_m. destruct (i =? 0)%nat; lra. Qed.
Lemma ex_sum v : 0 < v -> rsum 2 (appearing ex_z (fun i => ln (ex_m i * v)) (fun _ => 0)) = v.
Proof. intros Hv. cbn. rewrite !ex_appearing by (try apply ex_m_pos; exact Hv). unfold ex_z, ex_m. cbn. field. Qed.
Lemma ex_slope v : 0 < v -> slope 2 ex_z (fun i => ln (ex_m i * v)) (fun _ => 0) (fun _ => / v) (fun _ => 0) = 1.
Proof. intros Hv. unfold slope. cbn. rewrite !ex_appearing by (try apply ex_m_pos; exact Hv). unfold ex_z, ex_m. cbn. field. lra. Qed.

(* from 1.2 the step leads to 1, where the mixture has no phase: no number of iterations gives an answer *)
Example C59_recovers_hypotheses_met maxiter c0 p q : (0 < maxiter)%nat -> ex_run 1 ex_m ex_z maxiter 1.2 c0 (/ 10 ^ 7) p q = Exn NotConverged.
Proof.
  intros Hmax. unfold ex_run.
  assert (Hex : excess 2 ex_z (fun i => ln (ex_m i * 1.2)) (fun _ => 0) = 0.2) by (unfold excess; rewrite ex_sum by lra; lra).
  eapply C59_recovers_refuted with (co := (1.2, true)) (it := (1.2, false)) (lc := fun i => ln (ex_m i * 1.2)) (dc := fun _ => / 1.2)
    (li := fun _ => 0) (di := fun _ => 0); try reflexivity; try exact Hmax; rewrite ?Hex, ?ex_slope, ?ex_sum by lra.
  - unfold ex_const. destruct (Rleb_spec 1.2 1); [lra|reflexivity].
  - lra.
  - lra.
  - replace (-0.2 / 1) with (-0.2) by field. rewrite Rabs_left by lra. lra.
  - replace (-0.2 / 1) with (-0.2) by field. rewrite Rabs_left by lra. lra.
  - replace (-0.2 / 1) with (-0.2) by field. rewrite Rabs_left by lra. lra.
  - lra.
  - unfold ex_const. destruct (Rleb_spec (1.2 + - (0.2) / 1) 1); [reflexivity|lra].
Qed.
(* the saturation point 1 is returned from 1, with the composition z m *)
Example C59_answer_hypotheses_met maxiter c0 p q : (1 < maxiter)%nat ->
  exists c it co, ex_run 0 ex_m ex_z maxiter 1 c0 (/ 10 ^ 7) p q = Ret (1, c, it, co, 0%nat, 0) /\ c 0%nat = 3 / 4 /\ c 1%nat = 1 / 4.
Proof.
  intros Hmax. unfold ex_run, dew_bubble. destruct maxiter as [|todo]; [lia|]. cbn [iterate]. unfold body. cbn [g_guess g_comp].
  unfold ex_const. destruct (Rleb_spec 1 0); [lra|]. unfold ex_props at 1. cbn [fst snd]. unfold ex_iter at 1. cbn [adjust]. unfold ex_props at 1. cbn [fst snd].
  unfold update. cbn [g_fails Nat.ltb Nat.leb].
  assert (Hs : rsum 2 (appearing ex_z (fun i => ln (ex_m i * 1)) (fun _ => 0)) = 1) by (apply ex_sum; lra).
  destruct (Reqb_spec (total 2 ex_z (K_of (fun i => ln (ex_m i * 1)) (fun _ => 0))) 0) as [E|_]; [rewrite total_eq, Hs in E; lra|].
  cbn [Nat.modulo Nat.divmod Nat.sub Nat.eqb negb snd]. cbv zeta. rewrite df_k_eq, f_k_eq, ex_slope by lra.
  unfold excess. rewrite Hs.
  destruct (Reqb_spec 1 0); [lra|]. rewrite Bool.andb_false_r. cbn [andb].
  match goal with |- context [Rltb (Rabs ?t) (/ 10 ^ 10)] => assert (E0 : t = 0) end.
  { unfold adj_step, copysign. replace (- (1 - 1) / 1) with 0 by field. rewrite Rabs_R0, Rmult_0_l.
    rewrite (Rmin_left 0 0), (Rmin_right (0.25 * 1) 0) by lra. destruct (Rltb_spec 0 0); [lra|]. rewrite Rabs_R0.
    destruct (Rleb_spec (1 + 0) 0); [lra|]. ring. }
  rewrite E0, Rabs_R0. destruct (Rltb_spec 0 (/ 10 ^ 10)) as [|H]; [|exfalso; apply H; apply Rinv_0_lt_compat, pow_lt; lra].
  unfold finish. cbn [g_old g_guess]. rewrite Rminus_diag_eq, Rabs_R0 by reflexivity.
  destruct (Rltb_spec (/ 10 ^ 10) 0) as [H|_]; [exfalso; pose proof (Rinv_0_lt_compat (10 ^ 10)) as Hp; assert (0 < 10 ^ 10) by (apply pow_lt; lra); lra|].
  eexists. eexists. eexists. split; [reflexivity|]. cbn [g_comp]. unfold raw. rewrite !total_eq, Hs, !K_appearing, !ex_appearing by (try apply ex_m_pos; lra).
  unfold ex_z, ex_m. cbn. split; field.
Qed.

(* Claimed: an answer whose two compositions are equal is never given (for a mixture). Refuted: nothing is compared in the first
   iteration. With ratios K_i = v for every component the guess v = 1 is returned at once, with the composition of the mixture. *)
Theorem C59_trivial_refuted : exists c it co,
  ex_run 0 (fun _ => 1) ex_z 200 1 ex_z (/ 10 ^ 7) (1, true) (1, true) = Ret (1, c, it, co, 0%nat, 0) /\ forall i, c i = ex_z i.
Proof.
  unfold ex_run, dew_bubble. cbn [iterate]. unfold body. cbn [g_guess g_comp].
  unfold ex_const. destruct (Rleb_spec 1 0); [lra|]. unfold ex_props at 1. cbn [fst snd]. unfold ex_iter at 1. cbn [adjust]. unfold ex_props at 1. cbn [fst snd].
  unfold update. cbn [g_fails Nat.ltb Nat.leb].
  assert (Ha : forall i, appearing ex_z (fun _ => ln (1 * 1)) (fun _ => 0) i = 1 / 2).
  { intros i. rewrite (ex_appearing (fun _ => 1) ex_z 1 i) by lra. unfold ex_z. field. }
  assert (Hs : rsum 2 (appearing ex_z (fun _ => ln (1 * 1)) (fun _ => 0)) = 1) by (cbn; rewrite !Ha; lra).
  assert (Hsl : slope 2 ex_z (fun _ => ln (1 * 1)) (fun _ => 0) (fun _ => / 1) (fun _ => 0) = 1) by (unfold slope; cbn; rewrite !Ha; field).
  destruct (Reqb_spec (total 2 ex_z (K_of (fun _ => ln (1 * 1)) (fun _ => 0))) 0) as [E|_]; [rewrite total_eq, Hs in E; lra|].
  cbn [Nat.modulo Nat.divmod Nat.sub Nat.eqb negb snd]. cbv zeta. rewrite df_k_eq, f_k_eq, Hsl.
  unfold excess. rewrite Hs.
  destruct (Reqb_spec 1 0); [lra|]. rewrite Bool.andb_false_r. cbn [andb].
  match goal with |- context [Rltb (Rabs ?t) (/ 10 ^ 10)] => assert (E0 : t = 0) end.
  { unfold adj_step, copysign. replace (- (1 - 1) / 1) with 0 by field. rewrite Rabs_R0, Rmult_0_l.
    rewrite (Rmin_left 0 0), (Rmin_right (0.25 * 1) 0) by lra. destruct (Rltb_spec 0 0); [lra|]. rewrite Rabs_R0.
    destruct (Rleb_spec (1 + 0) 0); [lra|]. ring. }
  rewrite E0, Rabs_R0. destruct (Rltb_spec 0 (/ 10 ^ 10)) as [|H]; [|exfalso; apply H; apply Rinv_0_lt_compat, pow_lt; lra].
  unfold finish. cbn [g_old g_guess]. rewrite Rminus_diag_eq, Rabs_R0 by reflexivity.
  destruct (Rltb_spec (/ 10 ^ 10) 0) as [H|_]; [exfalso; pose proof (Rinv_0_lt_compat (10 ^ 10)) as Hp; assert (0 < 10 ^ 10) by (apply pow_lt; lra); lra|].
  eexists. eexists. eexists. split; [reflexivity|]. intros i. cbn [g_comp]. unfold raw. rewrite total_eq, Hs, K_appearing, Ha. unfold ex_z. field.
Qed.

(* the slope used is the derivative of the saturation condition at fixed compositions, when the phases report the derivatives of ln phi *)
Theorem C59_slope N (zs : comp) (lc li dc di : R -> comp) v :
  (forall i, (i < N)%nat -> is_derive (fun t => lc t i) v (dc v i) /\ is_derive (fun t => li t i) v (di v i)) ->
  is_derive (fun t => excess N zs (lc t) (li t)) v (slope N zs (lc v) (li v) (dc v) (di v)).
Proof.
  intros H. unfold excess, slope. eapply is_derive_eq.
  - apply @is_derive_minus; [apply is_derive_rsum|apply is_derive_const].
    intros i Hi. destruct (H i Hi) as [Hc Hl].
    instantiate (1 := fun i => appearing zs (lc v) (li v) i * (dc v i - di v i)).
    assert (T : forall (f g : R -> R) df dg z, is_derive f v df -> is_derive g v dg ->
      is_derive (fun t => z * exp (f t) / exp (g t)) v (z * exp (f v) / exp (g v) * (df - dg))).
    { intros f g df dg z Hf Hg. eapply is_derive_eq.
      - auto_derive; [|reflexivity]. splits; try (exists df; exact Hf); try (exists dg; exact Hg); auto.
        pose proof (exp_pos (g v)). lra.
      - erewrite (is_derive_unique (fun x : R => f x)) by exact Hf. erewrite (is_derive_unique (fun x : R => g x)) by exact Hg.
        field. pose proof (exp_pos (g v)). lra. }
    apply (T (fun t => lc t i) (fun t => li t i)); assumption.
  - cbn. unfold minus, plus, opp, zero. cbn. ring.
Qed.
