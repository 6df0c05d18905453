(* C63: a phase with a given H, S, G, U or A at fixed T, P or V. *)
From Coq Require Import Reals List Bool Arith Lra Lia Ranalysis5.
From Coquelicot Require Import Coquelicot.
From Verif Require Import Base BaseFacts Model_hsgua.
Import ListNotations.
Open Scope R_scope.

Section Solve.
  Variable Phase : Type.
  Variables (to : R -> res Phase) (value target : Phase -> R).
  Variable open_solver : bool -> bool -> option R -> option R -> R -> list R * res R.
  Variable bounded_solver : R -> R -> list R * res R.
  Notation st := (st Phase).
  Notation exec := (exec Phase to value target).
  Notation eval := (eval Phase to value target).
  Notation eval_given := (eval_given Phase to value target).
  Notation low_side := (low_side Phase to value target).
  Notation high_side := (high_side Phase to value target).
  Notation bracket := (bracket Phase to value target).
  Notation solve := (solve Phase to value target open_solver bounded_solver).
  Notation run_solvers := (run_solvers Phase to value target open_solver bounded_solver).
  Notation store := (store Phase).
  Notation calls := (calls Phase).

  (* specification: how far a phase is from the property asked for *)
  Definition miss (p : Phase) : R := value p - target p.
  (* phases that can be seen: those at some value of the variable, and those given for the limits *)
  Definition seen (tr : res (trans Phase)) (p : Phase) : Prop :=
    (exists x, to x = Ret p) \/ (exists t, tr = Ret t /\ (t_lower Phase t = Some p \/ t_higher Phase t = Some p)).
  Definition good (tr : res (trans Phase)) (s : st) : Prop := forall p e, store s = Some (p, e) -> e = miss p /\ seen tr p.

  Lemma eval_good tr s x s' r : good tr s -> eval s x = (s', r) -> good tr s'.
  Proof.
    intros Hs. unfold Model_hsgua.eval, eval_phase. destruct (to x) eqn:E; intros H; injection H; intros <- <-; intros p0 e0 Hp; cbn in Hp; [|apply Hs, Hp].
    injection Hp. intros <- <-. split; [reflexivity|left; eauto].
  Qed.
  Lemma eval_ret s x s' f : eval s x = (s', Ret f) -> exists p, to x = Ret p /\ f = miss p /\ store s' = Some (p, miss p) /\ calls s' = S (calls s).
  Proof. unfold Model_hsgua.eval, eval_phase. destruct (to x) eqn:E; intros H; [|discriminate]. injection H. intros <- <-. exists a. auto. Qed.
  Lemma eval_calls s x s' r : eval s x = (s', r) -> calls s' = S (calls s).
  Proof. unfold Model_hsgua.eval, eval_phase. destruct (to x); intros H; injection H; intros <- <-; reflexivity. Qed.
  Lemma eval_given_good tr t s x g s' r : tr = Ret t -> g = t_lower Phase t \/ g = t_higher Phase t -> good tr s -> eval_given s x g = (s', r) -> good tr s'.
  Proof.
    intros Ht Hg Hs. unfold Model_hsgua.eval_given. destruct g as [p|]; [|apply eval_good, Hs]. unfold eval_phase. intros H. injection H. intros <- <-.
    intros q e Hq. cbn in Hq. injection Hq. intros <- <-. split; [reflexivity|right]. exists t. split; [exact Ht|]. destruct Hg as [Hg|Hg]; auto.
  Qed.
  Lemma exec_good tr xs out : forall s s' r, good tr s -> exec xs out s = (s', r) -> good tr s'.
  Proof.
    induction xs as [|x xs IH]; intros s s' r Hs; cbn [Model_hsgua.exec]; [intros H; injection H; intros <- <-; exact Hs|].
    destruct (eval s x) as [s1 [f|e]] eqn:E; intros H; [eapply IH; [|exact H]|injection H; intros <- <-]; eapply eval_good; eauto.
  Qed.
  Lemma exec_ret xs out : forall s s' v, exec xs out s = (s', Ret v) -> out = Ret v /\ calls s' = (calls s + length xs)%nat /\
    (forall ys x, xs = ys ++ [x] -> exists p, to x = Ret p /\ store s' = Some (p, miss p)).
  Proof.
    induction xs as [|x xs IH]; intros s s' v; cbn [Model_hsgua.exec].
    - intros H. injection H. intros -> <-. splits; [reflexivity|cbn; lia|]. intros [|? ?] ? E; discriminate.
    - destruct (eval s x) as [s1 [f|e]] eqn:E; intros H; [|discriminate]. destruct (IH _ _ _ H) as [H1 [H2 H3]].
      destruct (eval_ret _ _ _ _ E) as [p [P1 [P2 [P3 P4]]]]. splits; [exact H1|cbn; lia|].
      intros [|y ys] z Ez; cbn in Ez; injection Ez.
      + intros -> ->. cbn in H. injection H. intros _ <-. exists p. auto.
      + intros -> ->. apply (H3 ys z eq_refl).
  Qed.

  (* the bracket *)
  Lemma low_side_good tr t s mb s' r : tr = Ret t -> good tr s -> low_side s mb t = (s', r) -> good tr s'.
  Proof.
    intros Ht Hs. unfold Model_hsgua.low_side. destruct mb as [b|]; [|intros H; injection H; intros <- <-; exact Hs].
    destruct (eval s b) as [s1 [f|e]] eqn:E1; [|intros H; injection H; intros <- <-; eapply eval_good; eauto].
    destruct (eval_given s1 (t_under Phase t) (t_lower Phase t)) as [s2 [g|e]] eqn:E2; intros H; injection H; intros <- <-;
      (eapply eval_given_good; [exact Ht|left; reflexivity| |exact E2]; eapply eval_good; eauto).
  Qed.
  Lemma high_side_good tr t s mb low m s' r : tr = Ret t -> good tr s -> high_side s mb t low m = (s', r) -> good tr s'.
  Proof.
    intros Ht Hs. unfold Model_hsgua.high_side. destruct mb as [b|]; [|intros H; injection H; intros <- <-; exact Hs].
    destruct (match low with None => true | Some _ => m end); [|intros H; injection H; intros <- <-; exact Hs].
    destruct (eval s b) as [s1 [f|e]] eqn:E1; [|intros H; injection H; intros <- <-; eapply eval_good; eauto].
    destruct (eval_given s1 (t_above Phase t) (t_higher Phase t)) as [s2 [g|e]] eqn:E2; intros H; injection H; intros <- <-;
      (eapply eval_given_good; [exact Ht|right; reflexivity| |exact E2]; eapply eval_good; eauto).
  Qed.
  Lemma bracket_good s mn mx tr m ig s' r : good tr s -> bracket s mn mx tr m ig = (s', r) -> good tr s'.
  Proof.
    intros Hs. unfold Model_hsgua.bracket. destruct tr as [t|e]; [|intros H; injection H; intros <- <-; exact Hs].
    destruct (low_side s mn t) as [s1 [low|e]] eqn:E1; [|intros H; injection H; intros <- <-; eapply low_side_good; eauto].
    destruct (high_side s1 mx t low m) as [s2 [[p|]|e]] eqn:E2.
    - intros H; injection H; intros <- <-. eapply high_side_good; [reflexivity| |exact E2]. eapply low_side_good; eauto.
    - assert (good (Ret t) s2) by (eapply high_side_good; [reflexivity| |exact E2]; eapply low_side_good; eauto).
      destruct (match mx with Some _ => negb ig | None => false end); [intros H0; injection H0; intros <- <-; assumption|].
      destruct (negb ig && not_likely mn mx (t_at Phase t)); intros H0; injection H0; intros <- <-; assumption.
    - intros H; injection H; intros <- <-. eapply high_side_good; [reflexivity| |exact E2]. eapply low_side_good; eauto.
  Qed.

  (* C63: the phase and the error returned belong together; the phase is one that was seen *)
  Theorem C63_answer fixed iter sp guess fprime sf osc bounded mn mx mp tr v p n err :
    solve fixed iter sp guess fprime sf osc bounded mn mx mp tr = Ret (v, p, n, err) -> err = miss p /\ seen tr p.
  Proof.
    unfold Model_hsgua.solve. destruct (var_eqb fixed iter); [discriminate|]. destruct (phys_limit fixed mp mx) as [mx' high].
    set (br := match fixed with VT => _ | _ => _ end).
    destruct br as [s1 b] eqn:Eb.
    assert (G0 : good tr (St Phase 0 None)) by (intros ? ? H; discriminate H).
    assert (G1 : good tr s1) by (unfold br in Eb; destruct fixed; [eapply bracket_good; [exact G0|exact Eb]|injection Eb; intros <- <-; exact G0|injection Eb; intros <- <-; exact G0]).
    clear Eb br.
    assert (K : forall mn mx high guess osc, run_solvers s1 (fprime && negb sf) osc bounded mn mx high guess = Ret (v, p, n, err) ->
        err = miss p /\ seen tr p).
    { clear mn mx' high guess osc. intros mn mx' high guess osc. unfold Model_hsgua.run_solvers. destruct (open_solver _ _ _ _ _) as [xs out]. destruct (exec xs out s1) as [s2 r] eqn:E2.
      assert (G2 : good tr s2) by (eapply exec_good; eauto).
      assert (Fin : forall s (r : res R), good tr s -> match r with Exn e => Exn e | Ret v => match store s with None => Exn OtherError | Some (p, err) => Ret (v, p, calls s, err) end end = Ret (v, p, n, err) -> err = miss p /\ seen tr p).
      { intros s [w|e] Gs; [|discriminate]. destruct (store s) as [[q e]|] eqn:Es; [|discriminate]. intros H. injection H. intros -> _ -> _. apply Gs, Es. }
      destruct r as [w|e]; [apply (Fin s2 (Ret w)), G2|]. destruct (caught e); [|discriminate].
      destruct bounded; [|discriminate]. destruct mn as [lo|]; [|discriminate]. destruct mx' as [hi|]; [|discriminate].
      destruct (bounded_solver lo hi) as [ys out2]. destruct (exec ys out2 s2) as [s3 r3] eqn:E3. apply Fin. eapply exec_good; eauto. }
    destruct b as [[[lo hi]|]|[]]; try discriminate; apply K.
  Qed.
  (* with solvers that evaluate their answer last, the phase is that of the value returned *)
  Theorem C63_phase_at_value fixed iter sp guess fprime sf osc bounded mn mx mp tr v p n err :
    (forall f o l h g xs w, open_solver f o l h g = (xs, Ret w) -> exists ys, xs = ys ++ [w]) ->
    (forall l h xs w, bounded_solver l h = (xs, Ret w) -> exists ys, xs = ys ++ [w]) ->
    solve fixed iter sp guess fprime sf osc bounded mn mx mp tr = Ret (v, p, n, err) -> to v = Ret p /\ err = miss p /\ (1 <= n)%nat.
  Proof.
    intros Ho Hb. unfold Model_hsgua.solve. destruct (var_eqb fixed iter); [discriminate|]. destruct (phys_limit fixed mp mx) as [mx' high].
    set (br := match fixed with VT => _ | _ => _ end).
    destruct br as [s1 b] eqn:Eb. clear Eb br.
    assert (K : forall mn mx high guess osc, run_solvers s1 (fprime && negb sf) osc bounded mn mx high guess = Ret (v, p, n, err) ->
        to v = Ret p /\ err = miss p /\ (1 <= n)%nat).
    { clear mn mx' high guess osc. intros mn mx' high guess osc. unfold Model_hsgua.run_solvers. destruct (open_solver _ _ _ _ _) as [xs out] eqn:Eo. destruct (exec xs out s1) as [s2 r] eqn:E2.
      assert (Fin : forall s0 s ys (out : res R) w, exec ys out s0 = (s, Ret w) -> (out = Ret w -> exists zs, ys = zs ++ [w]) ->
        match store s with None => Exn OtherError | Some (p, err) => Ret (w, p, calls s, err) end = Ret (v, p, n, err) -> to v = Ret p /\ err = miss p /\ (1 <= n)%nat).
      { intros s0 s ys o w H Hw. destruct (exec_ret _ _ _ _ _ H) as [H1 [H2 H3]]. destruct (Hw H1) as [zs Hz]. destruct (H3 zs w Hz) as [q [Q1 Q2]].
        rewrite Q2. intros E. injection E. intros <- <- <- <-. splits; auto. rewrite H2, Hz, app_length. cbn. lia. }
      destruct r as [w|e]; [eapply Fin; [exact E2|]; intros ->; eapply Ho; exact Eo|]. destruct (caught e); [|discriminate].
      destruct bounded; [|discriminate]. destruct mn as [lo|]; [|discriminate]. destruct mx' as [hi|]; [|discriminate].
      destruct (bounded_solver lo hi) as [ys out2] eqn:Eb. destruct (exec ys out2 s2) as [s3 [w|?]] eqn:E3; [|discriminate].
      eapply Fin; [exact E3|]. intros ->. eapply Hb. exact Eb. }
    destruct b as [[[lo hi]|]|[]]; try discriminate; apply K.
  Qed.

  (* the bracket at fixed T: a bound of the caller and the limit of the transition on its side, in order, where the misses have not the same
     sign. The limit may be judged with the phase given for it. *)
  Definition at_limit (x : R) (given : option Phase) (p : Phase) : Prop := match given with Some q => p = q | None => to x = Ret p end.
  Lemma eval_given_ret s x g s' f : eval_given s x g = (s', Ret f) -> exists p, at_limit x g p /\ f = miss p.
  Proof.
    unfold Model_hsgua.eval_given. destruct g as [q|]; [|intros H; destruct (eval_ret _ _ _ _ H) as [p [P1 [P2 _]]]; exists p; split; assumption].
    unfold eval_phase. intros H. injection H. intros <- _. exists q. split; reflexivity.
  Qed.
  Definition side (bound : option R) (limit : R) (given : option Phase) (lo hi : R) : Prop :=
    exists b p q, bound = Some b /\ to b = Ret p /\ at_limit limit given q /\ miss p * miss q <= 0 /\ lo = Rmin b limit /\ hi = Rmax b limit.
  Theorem C63_bracket s mn mx t m ig s' lo hi : bracket s mn mx (Ret t) m ig = (s', Ret (Some (lo, hi))) ->
    lo <= hi /\ (side mn (t_under Phase t) (t_lower Phase t) lo hi \/ side mx (t_above Phase t) (t_higher Phase t) lo hi).
  Proof.
    unfold Model_hsgua.bracket.
    assert (Hside : forall b x g lo hi, side b x g lo hi -> lo <= hi).
    { intros b x g l h [c [p [q [_ [_ [_ [_ [-> ->]]]]]]]]. pose proof (Rmin_l c x). pose proof (Rmax_l c x). lra. }
    destruct (low_side s mn t) as [s1 [low|e]] eqn:E1; [|discriminate].
    assert (L : low = None \/ exists l h, low = Some (l, h) /\ side mn (t_under Phase t) (t_lower Phase t) l h).
    { unfold Model_hsgua.low_side in E1. destruct mn as [b|]; [|injection E1; auto]. destruct (eval s b) as [s2 [f|e]] eqn:E2; [|discriminate].
      destruct (eval_given s2 _ _) as [s3 [g|e]] eqn:E3; [|discriminate]. injection E1. intros <- _.
      destruct (Rleb_spec (f * g) 0); [right|left; reflexivity]. destruct (eval_ret _ _ _ _ E2) as [p [P1 [P2 _]]]. destruct (eval_given_ret _ _ _ _ _ E3) as [q [Q1 Q2]].
      unfold pair_of. eexists _, _. split; [reflexivity|]. exists b, p, q. splits; auto. rewrite <- P2, <- Q2. assumption. }
    destruct (high_side s1 mx t low m) as [s2 [[p0|]|e]] eqn:E2; [| |discriminate].
    2:{ destruct (match mx with Some _ => negb ig | None => false end); [discriminate|]. destruct (negb ig && _); discriminate. }
    intros H. injection H. intros -> _. clear H.
    assert (G : side mn (t_under Phase t) (t_lower Phase t) lo hi \/ side mx (t_above Phase t) (t_higher Phase t) lo hi).
    { assert (Old : low = Some (lo, hi) -> side mn (t_under Phase t) (t_lower Phase t) lo hi).
      { intros El. destruct L as [L|[l [h [L1 L2]]]]; [congruence|]. rewrite El in L1. injection L1. intros -> ->. exact L2. }
      unfold Model_hsgua.high_side in E2. destruct mx as [b|]; [|injection E2; auto].
      destruct (match low with None => true | Some _ => m end); [|injection E2; auto].
      destruct (eval s1 b) as [s3 [f|e]] eqn:E3; [|discriminate]. destruct (eval_given s3 _ _) as [s4 [g|e]] eqn:E4; [|discriminate].
      injection E2. intros E _. destruct (Rleb_spec (f * g) 0); [|auto]. injection E. intros <- <-. right.
      destruct (eval_ret _ _ _ _ E3) as [p [P1 [P2 _]]]. destruct (eval_given_ret _ _ _ _ _ E4) as [q [Q1 Q2]].
      exists b, p, q. splits; auto. rewrite <- P2, <- Q2. assumption. }
    split; [destruct G as [G|G]; eapply Hside; exact G|exact G].
  Qed.
  (* when the limits are not given as phases (P is solved for) and the miss is continuous, a phase with the property exists between them *)
  Theorem C63_bracket_solution s mn mx t m ig s' lo hi f : bracket s mn mx (Ret t) m ig = (s', Ret (Some (lo, hi))) ->
    t_lower Phase t = None -> t_higher Phase t = None ->
    (forall x p, to x = Ret p -> f x = miss p) -> (forall x, lo <= x <= hi -> continuous f x) ->
    exists x, lo <= x <= hi /\ f x = 0.
  Proof.
    intros H Hl Hh Hf Hc. destruct (C63_bracket _ _ _ _ _ _ _ _ _ H) as [Hle Hs].
    assert (E : f lo * f hi <= 0).
    { assert (G : forall b x, side b x None lo hi -> f lo * f hi <= 0).
      { intros b x [c [p [q [_ [Hp [Hq [Hm [-> ->]]]]]]]]. cbn in Hq. rewrite <- (Hf c p Hp), <- (Hf x q Hq) in Hm.
        unfold Rmin, Rmax. destruct (Rle_dec c x); [exact Hm|]. rewrite Rmult_comm. exact Hm. }
      rewrite Hl, Hh in Hs. destruct Hs as [Hs|Hs]; eapply G; exact Hs. }
    destruct (Rle_lt_or_eq_dec _ _ Hle) as [Hlt|Heq].
    2:{ exists lo. split; [lra|]. rewrite <- Heq in E. nra. }
    destruct (Req_dec (f lo) 0) as [E0|N0]; [exists lo; split; [lra|exact E0]|].
    destruct (Req_dec (f hi) 0) as [E1|N1]; [exists hi; split; [lra|exact E1]|].
    destruct (Rlt_or_le (f lo) 0) as [Hneg|Hpos].
    - destruct (IVT_interv f lo hi) as [x [Hx Ex]]; auto; [|nra|exists x; auto].
      intros x Hx. apply continuity_pt_filterlim, Hc, Hx.
    - destruct (IVT_interv (fun x => - f x) lo hi) as [x [Hx Ex]]; auto; [|lra|nra|exists x; split; [exact Hx|lra]].
      intros x Hx. apply continuity_pt_opp. apply continuity_pt_filterlim, Hc, Hx.
  Qed.

  (* the solver starts inside the bracket *)
  Theorem C63_guess_inside fixed iter sp guess fprime sf osc bounded mn mx mp tr s lo hi :
    fixed = VT -> iter <> VT ->
    bracket (St Phase 0 None) mn mx tr (multiple_solutions fixed sp) (match iter with VP => true | _ => false end) = (s, Ret (Some (lo, hi))) -> lo < hi ->
    exists g, lo < g < hi /\ (lo < guess < hi -> g = guess) /\
      solve fixed iter sp guess fprime sf osc bounded mn mx mp tr = run_solvers s (fprime && negb sf) false bounded (Some lo) (Some hi) (Some hi) g.
  Proof.
    intros -> Hi Hb Hlt. exists (if Rltb lo guess && Rltb guess hi then guess else 0.5 * (lo + hi)). splits.
    - destruct (Rltb_spec lo guess), (Rltb_spec guess hi); cbn; lra.
    - destruct (Rltb_spec lo guess), (Rltb_spec guess hi); cbn; lra.
    - intros H. destruct (Rltb_spec lo guess), (Rltb_spec guess hi); cbn; try lra.
    - unfold Model_hsgua.solve.
      replace (var_eqb VT iter) with false by (destruct iter; [destruct (Hi eq_refl)|reflexivity|reflexivity]). cbn [phys_limit].
      rewrite Hb. reflexivity.
  Qed.

  (* Claimed: with two bounds on which nothing is known of the low side, nothing is concluded. Refuted: the test asks twice whether max_bound is
     given; without min_bound a volume is declared to lie between the phases as soon as the high side does not bracket. *)
  Theorem C63_between_refuted s b t f g s1 s2 : eval s b = (s1, Ret f) -> eval_given s1 (t_above Phase t) (t_higher Phase t) = (s2, Ret g) -> 0 < f * g ->
    forall m, bracket s None (Some b) (Ret t) m false = (s2, Exn NotBounded).
  Proof.
    intros H1 H2 H3 m. unfold Model_hsgua.bracket. cbn [Model_hsgua.low_side]. unfold Model_hsgua.high_side. rewrite H1, H2.
    destruct (Rleb_spec (f * g) 0); [lra|]. reflexivity.
  Qed.
  (* at fixed T both sides are always examined; if both bracket, the high one is used *)
  Theorem C63_high_side sp : multiple_solutions VT sp = true /\ multiple_solutions VP sp = false /\ multiple_solutions VV sp = false.
  Proof. auto. Qed.

  (* Claimed: when the open solver fails and bounded solving is off or a bound is missing, its exception is raised. Refuted: the value is never
     assigned, another exception is raised. *)
  Theorem C63_unbounded_refuted iter sp guess fprime sf osc bounded mn mp tr e : iter <> VP ->
    open_solver (fprime && negb sf) osc mn None guess = ([], Exn e) -> caught e = true -> bounded = false \/ mn = None ->
    solve VP iter sp guess fprime sf osc bounded mn None mp tr = Exn UnboundVariable.
  Proof.
    intros Hi Ho He Hb. unfold Model_hsgua.solve. replace (var_eqb VP iter) with false by (destruct iter; [reflexivity|destruct (Hi eq_refl)|reflexivity]).
    cbn [phys_limit]. unfold Model_hsgua.run_solvers. rewrite Ho. cbn [Model_hsgua.exec]. rewrite He. destruct Hb as [-> | ->]; [reflexivity|]. destruct bounded; reflexivity.
  Qed.
  (* the bounded solver is only used after the open one has failed, and only its failures to converge are followed by it *)
  Theorem C63_other_errors iter sp guess fprime sf osc bounded mn mx mp tr e : iter <> VP ->
    open_solver (fprime && negb sf) osc mn None guess = ([], Exn e) -> caught e = false ->
    solve VP iter sp guess fprime sf osc bounded mn mx mp tr = Exn e.
  Proof.
    intros Hi Ho He. unfold Model_hsgua.solve. replace (var_eqb VP iter) with false by (destruct iter; [reflexivity|destruct (Hi eq_refl)|reflexivity]).
    cbn [phys_limit]. unfold Model_hsgua.run_solvers. rewrite Ho. cbn [Model_hsgua.exec]. rewrite He. reflexivity.
  Qed.
  (* at fixed volume the solver never goes above the physical limit, nor above the bound of the caller *)
  Theorem C63_physical m mx : exists b, phys_limit VV (Some m) mx = (Some b, Some b) /\ b <= m /\ (forall c, mx = Some c -> b <= c).
  Proof.
    destruct mx as [c|]; cbn; eexists; splits; try reflexivity; [apply Rmin_l|intros c' E; injection E; intros <-; apply Rmin_r|lra|discriminate].
  Qed.

  (* the direct functions of T at P and H *)
  Theorem C63_PH xs out spec_val v p n err : PH_1P Phase to value spec_val (xs, out) = Ret (v, p, n, err) ->
    out = Ret v /\ n = length xs /\ err = value p - spec_val /\ exists ys x, xs = ys ++ [x] /\ to x = Ret p.
  Proof.
    unfold PH_1P. cbn [fst snd]. destruct (Model_hsgua.exec Phase to value (fun _ => spec_val) xs out (St Phase 0 None)) as [s [w|e]] eqn:E; [|discriminate].
    assert (K : forall zs s0 s' v, Model_hsgua.exec Phase to value (fun _ => spec_val) zs out s0 = (s', Ret v) -> out = Ret v /\ calls s' = (calls s0 + length zs)%nat /\
      (zs = [] /\ s' = s0 \/ exists ys x q, zs = ys ++ [x] /\ to x = Ret q /\ store s' = Some (q, value q - spec_val))).
    { induction zs as [|z zs IH]; intros s0 s' u; cbn [Model_hsgua.exec].
      - intros H. injection H. intros -> <-. splits; [reflexivity|cbn; lia|auto].
      - destruct (Model_hsgua.eval Phase to value (fun _ => spec_val) s0 z) as [s1 [f|e]] eqn:Ee; [|discriminate]. intros H. destruct (IH _ _ _ H) as [H1 [H2 H3]].
        unfold Model_hsgua.eval, eval_phase in Ee. destruct (to z) as [q|] eqn:Ez; [|discriminate]. injection Ee. intros _ <-. cbn in H2. splits; [exact H1|cbn; lia|right].
        destruct H3 as [[-> ->]|[ys [x [q' [-> H3]]]]]; [exists [], z, q; auto|exists (z :: ys), x, q'; auto]. }
    destruct (K _ _ _ _ E) as [K1 [K2 K3]]. destruct (store s) as [[q e]|] eqn:Es; [|discriminate]. intros H. injection H. intros <- <- <- <-.
    destruct K3 as [[_ ->]|[ys [x [q' [K3 [K4 K5]]]]]]; [discriminate|]. injection K5. intros -> ->. cbn in K2. splits; auto. exists ys, x. auto.
  Qed.
End Solve.

(* ---- the simple models ---- *)
(* specification: the molar properties of an ideal gas with heat capacity integrals dH, dS at a state *)
Fixpoint wsum (zs : list R) (f : list (R -> R)) (T : R) : R := match zs, f with z :: zs, g :: f => z * g T + wsum zs f T | _, _ => 0 end.
Fixpoint zlnz (zs : list R) : R := match zs with [] => 0 | z :: zs => (if Rlt_dec 0 z then z * ln z else 0) + zlnz zs end.
Definition ig_H zs dH T := wsum zs dH T.
Definition ig_S zs dS P_ref T P := wsum zs dS T - Rgas * zlnz zs - Rgas * ln (P / P_ref).
Definition ig_value zs dH dS P_ref (sp : spec) (T P V : R) : R :=
  match sp with
  | SH => ig_H zs dH T
  | SS => ig_S zs dS P_ref T P
  | SG => ig_H zs dH T - T * ig_S zs dS P_ref T P
  | SU => ig_H zs dH T - P * V
  | SA => ig_H zs dH T - P * V - T * ig_S zs dS P_ref T P
  end.
Definition var_value (v : var) (T P V : R) : R := match v with VT => T | VP => P | VV => V end.

Lemma mix_wsum zs f T : mix zs f T = wsum zs f T.
Proof.
  unfold mix. assert (G : forall zs f a, fold_left (fun acc p => acc + fst p * snd p T) (combine zs f) a = a + wsum zs f T).
  { clear. induction zs as [|z zs IH]; intros [|g f] a; cbn; try ring. rewrite IH. ring. }
  rewrite G. ring.
Qed.
Lemma dS_zlnz zs : dS_ideal zs = Rgas * zlnz zs.
Proof.
  unfold dS_ideal. f_equal.
  assert (G : forall zs a, fold_left Rplus (map (fun z => z * ln z) (filter (fun z => Rltb 0 z) zs)) a = a + zlnz zs).
  { clear. induction zs as [|z zs IH]; intros a; cbn; [ring|]. destruct (Rltb_spec 0 z), (Rlt_dec 0 z); try tauto; cbn; rewrite IH; ring. }
  rewrite G. ring.
Qed.
(* the guess solves the ideal gas at the state: for the pairs in which P is fixed or solved for *)
Theorem C63_ideal_gas zs dH dS P_ref fixed iter sp T P V spec_val : P_ref <> 0 -> P <> 0 -> P * V = Rgas * T -> fixed <> iter -> fixed = VP \/ iter = VP ->
  ideal_gas_err zs dH dS P_ref fixed iter sp (var_value fixed T P V) (var_value iter T P V) spec_val = Ret (ig_value zs dH dS P_ref sp T P V - spec_val).
Proof.
  intros Hr HP HV Hne Hp. unfold ideal_gas_err, simple_err. pose proof Rgas_pos as HR.
  assert (HT : P * V / Rgas = T) by (rewrite HV; field; lra). assert (HV' : Rgas * T / P = V) by (rewrite <- HV; field; exact HP).
  assert (HL : P * (1 / P_ref) = P / P_ref) by (field; exact Hr).
  destruct fixed, iter; cbn [locals var_value temperature]; try (destruct (Hne eq_refl)); try (destruct Hp; discriminate);
    rewrite ?HT, ?HV', ?HL, !mix_wsum, dS_zlnz; destruct sp; unfold ig_value, ig_S, ig_H; f_equal.
Qed.
(* Claimed: the guesses can be made for every pair of different variables. Refuted: with T and V one fixed and the other solved for, P is not
   defined, for any model and any property. *)
Theorem C63_T_and_V_refuted H S V F zs P_ref sp fixed_val guess spec_val :
  simple_err H S V F zs P_ref VT VV sp fixed_val guess spec_val = Exn UnboundVariable /\ simple_err H S V F zs P_ref VV VT sp fixed_val guess spec_val = Exn UnboundVariable.
Proof. split; reflexivity. Qed.
(* Claimed: the corresponding states liquid model gives guesses for V. Refuted: its temperature function returns nothing. *)
Theorem C63_liquid_refuted H S V zs P_ref sp fixed_val guess spec_val :
  dadgostar_err H S V zs P_ref VP VV sp fixed_val guess spec_val = Exn TypeError /\ dadgostar_err H S V zs P_ref VV VP sp fixed_val guess spec_val = Exn TypeError.
Proof. split; reflexivity. Qed.

(* ---- the guess used ---- *)
Theorem C63_guess k iter last estimate : start_guess k iter last estimate =
  Ret (match last with Some v => v | None => match iter with VT => 298.15 | VP => 101325 | VV => 0.024465403697038125 end end).
Proof. destruct k, last; reflexivity. Qed.
(* Claimed (by the lists of methods): the models give the guess when there is no converged value. Refuted: the constant before them always
   answers; the guess does not depend on the models. *)
Theorem C63_models_refuted k iter last e1 e2 : start_guess k iter last e1 = start_guess k iter last e2.
Proof. rewrite !C63_guess. reflexivity. Qed.
(* the tolerance *)
Theorem C63_tolerance iter sp x : exists y, ytol_of false iter sp x = Some y /\ 0 <= y <= Rabs x / 10 ^ 8 /\ (iter = VT -> sp = SH \/ sp = SS -> y = Rabs x / 10 ^ 10).
Proof.
  pose proof (Rabs_pos x) as Hx. unfold ytol_of. assert (0 < 10 ^ 8) by (apply pow_lt; lra). assert (E : 10 ^ 10 = 10 ^ 8 * 100) by ring.
  assert (0 <= / 10 ^ 8 * Rabs x) by (apply Rmult_le_pos; [left; apply Rinv_0_lt_compat; assumption|assumption]).
  assert (E2 : Rabs x / 10 ^ 10 = / 10 ^ 8 * Rabs x / 100) by (rewrite E; field; lra). assert (E3 : Rabs x / 10 ^ 8 = / 10 ^ 8 * Rabs x) by (unfold Rdiv; ring).
  rewrite E2, E3. destruct iter, sp; eexists; splits; try reflexivity; try lra; intros ? [?|?]; try discriminate; try reflexivity.
Qed.
(* T and P returned are those of the phase, also when the solver returns another value *)
Theorem C63_state Phase T P iapws v p n err r : solve_PTV Phase T P iapws (Ret (v, p, n, err)) = Ret r -> r = (T p, P p, p, n, err) /\ (iapws = true -> Rabs err <= / 10 ^ 4).
Proof.
  unfold solve_PTV. destruct iapws; cbn [andb]; [|intros H; injection H; intros <-; split; [reflexivity|discriminate]].
  destruct (Rltb_spec (/ 10 ^ 4) (Rabs err)); [discriminate|]. intros H. injection H. intros <-. split; [reflexivity|intros _; lra].
Qed.

(* a phase is its temperature, its enthalpy is 2 T: a solver that evaluates 300, 400, 500 and returns 500 *)
Example C63_hypotheses_met :
  solve R (fun x => Ret x) (fun T => 2 * T) (fun _ => 1000) (fun _ _ _ _ _ => ([300; 400; 500], Ret 500)) (fun _ _ => ([], Exn Unconverged)) VP VT SH 298.15
    true false true true (Some 1) (Some 10000) None (Exn OtherError) = Ret (500, 500, 3%nat, 2 * 500 - 1000) /\ 2 * 500 - 1000 = 0.
Proof. split; [reflexivity|ring]. Qed.
(* a bracket: transition at 10, the miss is x - 3 *)
Example C63_bracket_hypotheses_met : exists s,
  bracket R (fun x => Ret x) (fun x => x) (fun _ => 3) (St R 0 None) (Some 1) (Some 100) (Ret (Tr R 10 9 11 None None)) true true = (s, Ret (Some (Rmin 1 9, Rmax 1 9))).
Proof.
  unfold bracket, low_side, high_side, eval_given, eval, eval_phase, pair_of. cbn [t_under t_above t_lower t_higher t_at].
  destruct (Rleb_spec ((1 - 3) * (9 - 3)) 0); [|lra]. destruct (Rleb_spec ((100 - 3) * (11 - 3)) 0); [lra|]. eexists. reflexivity.
Qed.
