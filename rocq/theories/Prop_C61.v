(* C61: the search for two points between which a phase appears (generate_phase_boundaries_naive). *)
From Coq Require Import Reals List Bool Arith Lra Lia.
From Verif Require Import Base BaseFacts Model_boundary.
Import ListNotations.
Open Scope R_scope.

Section Boundary.
  Variable Res : Type.
  Variables (flash : R -> option Res) (check value : Res -> R).
  Variables (non_integral ignore_der0 : bool).
  Let generate := generate Res flash check value non_integral ignore_der0.
  Let search := search Res flash check value non_integral ignore_der0.

  (* --- specification --- *)
  (* a result without the phase, and one with it; for a fraction to be reached: not above it, above it *)
  Definition without (r : Res) : Prop := if non_integral then check r <= 0 else check r = -1.
  Definition with_phase (r : Res) : Prop := if non_integral then 0 < check r else 0 <= check r.
  (* p is a flash a little beyond r that still has the phase *)
  Definition beyond (r p : Res) : Prop := exists f, / 10 ^ 10 <= f <= / 10 ^ 4 /\ flash (value r * (1 + f)) = Some p /\ 0 <= check p.
  (* the amount of the phase grows from r to p *)
  Definition grows (r p : Res) : Prop := exists f, / 10 ^ 10 <= f <= / 10 ^ 4 /\ flash (value r * (1 + f)) = Some p /\ 0 < (check p - check r) / (value r * f).
  Definition shrinks (r p : Res) : Prop := exists f, / 10 ^ 10 <= f <= / 10 ^ 4 /\ flash (value r * (1 + f)) = Some p /\ (check p - check r) / (value r * f) <= 0.

  Lemma is_non_spec r : is_non non_integral (check r) = true <-> without r.
  Proof.
    unfold is_non, without. destruct non_integral.
    - destruct (Rleb_spec (check r) 0); split; auto; discriminate.
    - destruct (Reqb_spec (check r) (-1)); split; auto; discriminate.
  Qed.
  Lemma is_phase_spec r : is_phase non_integral (check r) = true <-> with_phase r.
  Proof.
    unfold is_phase, with_phase. destruct non_integral.
    - destruct (Rltb_spec 0 (check r)); split; auto; discriminate.
    - destruct (Rleb_spec 0 (check r)); split; auto; discriminate.
  Qed.
  Lemma exclusive r : without r -> with_phase r -> False.
  Proof. unfold without, with_phase. destruct non_integral; lra. Qed.

  Lemma factors_range f : In f factors -> / 10 ^ 10 <= f <= / 10 ^ 4.
  Proof.
    assert (H : forall a b, (a <= b)%nat -> / 10 ^ b <= / 10 ^ a) by (intros a b Hab; apply Rinv_le_contravar; [apply pow_lt; lra|apply Rle_pow; [lra|exact Hab]]).
    unfold factors. intros Hf. repeat (destruct Hf as [<-|Hf]; [split; apply H; lia|]). destruct Hf.
  Qed.
  Lemma perturb_spec fs r p dir : (forall f, In f fs -> / 10 ^ 10 <= f <= / 10 ^ 4) ->
    perturb Res flash check value fs r (check r) = Ret (p, dir) ->
    beyond r p /\ (dir = true -> grows r p) /\ (dir = false -> shrinks r p).
  Proof.
    induction fs as [|f fs IH]; intros Hf; cbn; [discriminate|].
    destruct (flash (value r * (1 + f))) as [q|] eqn:Eq; [|discriminate].
    destruct (Reqb_spec (value r * (1 + f) - value r) 0) as [|Hn]; [discriminate|].
    destruct (Rleb_spec 0 (check q)) as [Hc|Hc]; [|intros H; apply IH; [intros; apply Hf; right; assumption|exact H]].
    replace (value r * (1 + f) - value r) with (value r * f) by ring.
    intros H. injection H. intros E <-. assert (Hf0 := Hf f (or_introl eq_refl)). splits.
    - exists f. auto.
    - intros ->. exists f. splits; auto; try apply Hf0. destruct (Rltb_spec 0 ((check q - check r) / (value r * f))); [assumption|discriminate].
    - intros ->. exists f. splits; auto; try apply Hf0. destruct (Rltb_spec 0 ((check q - check r) / (value r * f))); [discriminate|lra].
  Qed.

  (* the invariant after the guesses `done` *)
  Definition points (l : list R) : list (R * Res) := flat_map (fun v => match flash v with Some r => [(v, r)] | None => [] end) l.
  Lemma in_points l v r : In (v, r) (points l) <-> In v l /\ flash v = Some r.
  Proof.
    unfold points. rewrite in_flat_map. split.
    - intros [x [Hx H]]. destruct (flash x) as [q|] eqn:E; [|destruct H]. destruct H as [H|[]]. injection H. intros <- <-. auto.
    - intros [Hv H]. exists v. rewrite H. split; [exact Hv|left; reflexivity].
  Qed.
  Definition pert_ok (ph : option (R * Res * R)) (pt : option (Res * bool)) : Prop :=
    match pt with
    | None => True
    | Some (p, d) => exists v r, ph = Some (v, r, check r) /\ beyond r p /\ (d = true -> grows r p) /\ (d = false -> shrinks r p)
    end.
  Definition inv (done : list R) (s : bst Res) : Prop :=
    b_non Res s = filter (fun q => is_non non_integral (check (snd q))) (points done) /\
    b_all Res s = map (fun q => (fst q, snd q, check (snd q))) (filter (fun q => is_phase non_integral (check (snd q))) (points done)) /\
    b_phase Res s = hd_error (b_all Res s) /\ pert_ok (b_phase Res s) (b_pert Res s) /\
    (non_integral = true -> b_pert Res s = None).
  Lemma inv_start : inv [] (B Res [] [] None None).
  Proof. unfold inv. cbn. splits; reflexivity || exact I. Qed.
  Lemma inv_skip done s iv : flash iv = None -> inv done s -> inv (done ++ [iv]) s.
  Proof. intros E H. unfold inv, points in *. rewrite flat_map_app. cbn. rewrite E. cbn. rewrite app_nil_r. exact H. Qed.
  Lemma inv_record done s iv r : flash iv = Some r -> inv done s -> inv (done ++ [iv]) (record Res check non_integral s iv r).
  Proof.
    intros E [I1 [I2 [I3 [I4 I5]]]]. unfold inv, points in *. rewrite flat_map_app. cbn [flat_map]. rewrite E. cbn [app].
    rewrite !filter_app, map_app. cbn [filter fst snd]. rewrite <- I1, <- I2. unfold record.
    destruct (is_non non_integral (check r)) eqn:En.
    - assert (Ep : is_phase non_integral (check r) = false).
      { destruct (is_phase non_integral (check r)) eqn:Ep; [|reflexivity]. destruct (exclusive r); [apply is_non_spec|apply is_phase_spec]; assumption. }
      rewrite Ep. cbn [b_non b_all b_phase b_pert map]. rewrite !app_nil_r. splits; auto.
    - destruct (is_phase non_integral (check r)) eqn:Ep.
      + rewrite I3 in I4 |- *. destruct (hd_error (b_all Res s)) as [[[v0 r0] c0]|] eqn:Eh.
        * destruct (Rltb_spec c0 c0) as [H|_]; [lra|]. cbn [b_non b_all b_phase b_pert map fst snd]. rewrite !app_nil_r. splits; auto.
          destruct (b_all Res s); [discriminate|exact (eq_sym Eh)].
        * destruct (b_all Res s) as [|x xs] eqn:Ea; [|discriminate]. cbn [b_non b_all b_phase b_pert map fst snd]. rewrite app_nil_r. splits; auto; exact I.
      + cbn [map]. rewrite !app_nil_r. splits; auto.
  Qed.

  Lemma nearest_spec dir pv pr l : forall best dist nv nr,
    nearest Res value non_integral ignore_der0 dir pv pr l best dist = Some (nv, nr) ->
    (best = Some (nv, nr) /\ (forall v r, In (v, r) l -> ignore_der non_integral ignore_der0 = true \/ (dir = false /\ pv < v) \/ (dir = true /\ v < pv) -> dist <= Rabs (value r - value pr))) \/
    (In (nv, nr) l /\ (ignore_der non_integral ignore_der0 = true \/ (dir = false /\ pv < nv) \/ (dir = true /\ nv < pv)) /\
     Rabs (value nr - value pr) < dist /\
     (forall v r, In (v, r) l -> ignore_der non_integral ignore_der0 = true \/ (dir = false /\ pv < v) \/ (dir = true /\ v < pv) -> Rabs (value nr - value pr) <= Rabs (value r - value pr))).
  Proof.
    induction l as [|[v r] l IH]; intros best dist nv nr; cbn.
    - intros ->. left. split; [reflexivity|intros ? ? []].
    - destruct (_ && _) eqn:E.
      + apply andb_true_iff in E as [E1 E2]. destruct (Rltb_spec (Rabs (value r - value pr)) dist) as [Hd|]; [|discriminate].
        assert (Hs : ignore_der non_integral ignore_der0 = true \/ (dir = false /\ pv < v) \/ (dir = true /\ v < pv)).
        { apply orb_true_iff in E1 as [E1|E1]; [apply orb_true_iff in E1 as [E1|E1]; [left; exact E1|]|].
          - apply andb_true_iff in E1 as [E1 E3]. right; left. split; [destruct dir; [discriminate|reflexivity]|]. destruct (Rltb_spec pv v); [assumption|discriminate].
          - apply andb_true_iff in E1 as [E1 E3]. right; right. split; [exact E1|]. destruct (Rltb_spec v pv); [assumption|discriminate]. }
        intros H. destruct (IH _ _ _ _ H) as [[E0 A]|[A [B [C D]]]]; right.
        * injection E0. intros <- <-. splits; auto.
          intros v' r' [Hin|Hin] Hok; [injection Hin; intros <- <-; lra|apply (A v' r' Hin Hok)].
        * splits; auto; [lra|]. intros v' r' [Hin|Hin] Hok; [injection Hin; intros <- <-; lra|apply (D v' r' Hin Hok)].
      + intros H. assert (Hno : (ignore_der non_integral ignore_der0 = true \/ (dir = false /\ pv < v) \/ (dir = true /\ v < pv)) -> dist <= Rabs (value r - value pr)).
        { intros Hs. apply andb_false_iff in E as [E|E].
          - exfalso. apply orb_false_iff in E as [E E3]. apply orb_false_iff in E as [E1 E2].
            destruct Hs as [Hs|[[Hs1 Hs2]|[Hs1 Hs2]]].
            + rewrite Hs in E1. discriminate.
            + subst dir. cbn in E2. destruct (Rltb_spec pv v); [discriminate|lra].
            + subst dir. cbn in E3. destruct (Rltb_spec v pv); [discriminate|lra].
          - destruct (Rltb_spec (Rabs (value r - value pr)) dist); [discriminate|lra]. }
        destruct (IH _ _ _ _ H) as [[E0 A]|[A [B [C D]]]]; [left|right].
        * split; [exact E0|]. intros v' r' [Hin|Hin] Hok; [injection Hin; intros <- <-; auto|apply (A v' r' Hin Hok)].
        * splits; auto. intros v' r' [Hin|Hin] Hok; [injection Hin; intros <- <-; specialize (Hno Hok); lra|apply (D v' r' Hin Hok)].
  Qed.
  Lemma nearest_none dir pv pr l : forall dist v r, nearest Res value non_integral ignore_der0 dir pv pr l None dist = None ->
    In (v, r) l -> (ignore_der non_integral ignore_der0 = true \/ (dir = false /\ pv < v) \/ (dir = true /\ v < pv)) -> dist <= Rabs (value r - value pr).
  Proof.
    assert (Hsome : forall l b dist, nearest Res value non_integral ignore_der0 dir pv pr l (Some b) dist <> None).
    { clear l. induction l as [|[v r] l IH]; intros b dist; cbn; [discriminate|]. destruct (_ && _); apply IH. }
    induction l as [|[v0 r0] l IH]; intros dist v r; cbn; [intros _ []|].
    destruct (_ && _) eqn:E; [intros H; destruct (Hsome _ _ _ H)|].
    intros H [Hin|Hin] Hs; [|apply (IH _ v r H Hin Hs)]. injection Hin. intros <- <-.
    apply andb_false_iff in E as [E|E].
    - exfalso. apply orb_false_iff in E as [E E3]. apply orb_false_iff in E as [E1 E2].
      destruct Hs as [Hs|[[Hs1 Hs2]|[Hs1 Hs2]]].
      + rewrite Hs in E1. discriminate.
      + subst dir. cbn in E2. destruct (Rltb_spec pv v0); [discriminate|lra].
      + subst dir. cbn in E3. destruct (Rltb_spec v0 pv); [discriminate|lra].
    - destruct (Rltb_spec (Rabs (value r0 - value pr)) dist); [discriminate|lra].
  Qed.

  (* an answer found while the guesses are gone through *)
  Definition direct_answer (done : list R) (nv pv : R) (nr pr : Res) (pert : option Res) : Prop :=
    In nv done /\ flash nv = Some nr /\ without nr /\
    (exists l1 l2, done = l1 ++ pv :: l2 /\ flash pv = Some pr /\ with_phase pr /\ forall v r, In v l1 -> flash v = Some r -> ~ with_phase r) /\
    (non_integral = true -> pert = None) /\ (non_integral = false -> exists p, pert = Some p /\ beyond pr p) /\
    (non_integral = false -> ignore_der0 = false -> exists p, pert = Some p /\ ((grows pr p /\ nv < pv) \/ (shrinks pr p /\ pv < nv))) /\
    (forall v r, In v done -> flash v = Some r -> without r -> ignore_der non_integral ignore_der0 = true \/ (nv < pv /\ v < pv) \/ (pv < nv /\ pv < v) ->
       Rabs (value nr - value pr) <= Rabs (value r - value pr)).

  Lemma hd_first l v r c : hd_error (map (fun q : R * Res => (fst q, snd q, check (snd q))) (filter (fun q => is_phase non_integral (check (snd q))) (points l))) = Some (v, r, c) ->
    c = check r /\ exists l1 l2, l = l1 ++ v :: l2 /\ flash v = Some r /\ with_phase r /\ forall v' r', In v' l1 -> flash v' = Some r' -> ~ with_phase r'.
  Proof.
    induction l as [|x l IH]; cbn; [discriminate|]. unfold points. cbn [flat_map]. fold (points l). rewrite filter_app, map_app.
    destruct (flash x) as [q|] eqn:Ex; cbn [app filter map fst snd].
    - destruct (is_phase non_integral (check q)) eqn:Ep; cbn.
      + intros H. injection H. intros <- <- <-. split; [reflexivity|]. exists [], l. splits; auto; try (apply is_phase_spec, Ep).
      + intros H. destruct (IH H) as [Hc [l1 [l2 [E1 [E2 [E3 E4]]]]]]. split; [exact Hc|]. exists (x :: l1), l2. splits; auto.
        * cbn. rewrite E1. reflexivity.
        * intros v' r' [<-|Hin] Hfl; [|apply (E4 v' r' Hin Hfl)]. intros Hw. apply is_phase_spec in Hw. congruence.
    - intros H. destruct (IH H) as [Hc [l1 [l2 [E1 [E2 [E3 E4]]]]]]. split; [exact Hc|]. exists (x :: l1), l2. splits; auto.
      + cbn. rewrite E1. reflexivity.
      + intros v' r' [<-|Hin] Hfl; [congruence|apply (E4 v' r' Hin Hfl)].
  Qed.

  Lemma attempt_spec done s i : inv done s ->
    match attempt Res flash check value non_integral ignore_der0 s i with
    | Ret (Some (nv, pv, nr, pr, pert, k), s') => k = S i /\ direct_answer done nv pv nr pr pert
    | Ret (None, s') => inv done s'
    | Exn _ => True
    end.
  Proof.
    intros Hinv. pose proof Hinv as [I1 [I2 [I3 [I4 I5]]]]. unfold attempt.
    destruct (b_non Res s) as [|n0 ns] eqn:En; [exact Hinv|].
    destruct (b_phase Res s) as [[[pv pr] cp]|] eqn:Ep; [|exact Hinv].
    assert (Hd := eq_sym I3). rewrite I2 in Hd. destruct (hd_first _ _ _ _ Hd) as [-> Hfirst].
    set (pert := match b_pert Res s with Some p => Ret (Some p) | None => if non_integral then Ret None else match perturb Res flash check value factors pr (check pr) with Ret p => Ret (Some p) | Exn e => Exn e end end).
    assert (Hp : match pert with Exn _ => True | Ret pt => pert_ok (Some (pv, pr, check pr)) pt /\ (non_integral = false -> pt <> None) /\ (non_integral = true -> pt = None) end).
    { unfold pert. destruct (b_pert Res s) as [[p d]|] eqn:Epe.
      - splits; auto; discriminate.
      - destruct non_integral eqn:Eni; [splits; auto; try exact I; discriminate|].
        destruct (perturb Res flash check value factors pr (check pr)) as [[p d]|e] eqn:Eper; [|exact I].
        destruct (perturb_spec factors pr p d factors_range Eper) as [P1 [P2 P3]].
        splits; try discriminate. exists pv, pr. auto. }
    destruct pert as [pt|e]; [|exact I]. destruct Hp as [Hp1 [Hp2 Hp3]].
    match goal with |- context [nearest _ _ _ _ ?d _ _ _ _ _] => set (dir := d) end.
    destruct (nearest Res value non_integral ignore_der0 dir pv pr (n0 :: ns) None (10 ^ 100)) as [[nv nr]|] eqn:Enear.
    - destruct (nearest_spec _ _ _ _ _ _ _ _ Enear) as [[E _]|[A [B [C D]]]]; [discriminate|].
      rewrite I1 in A. apply filter_In in A as [A1 A2]. cbn in A2. apply in_points in A1 as [A1 A3]. apply is_non_spec in A2.
      split; [reflexivity|]. unfold direct_answer. splits; auto.
      + intros Hni. rewrite (Hp3 Hni). reflexivity.
      + intros Hni. destruct pt as [[p d]|]; [|destruct (Hp2 Hni eq_refl)]. exists p. split; [reflexivity|].
        destruct Hp1 as [v [r [E [P1 _]]]]. injection E. intros _ <- <-. exact P1.
      + intros Hni Hid. destruct pt as [[p d]|]; [|destruct (Hp2 Hni eq_refl)]. exists p. split; [reflexivity|].
        destruct Hp1 as [v [r [E [_ [P2 P3]]]]]. injection E. intros _ <- <-. unfold dir in B.
        unfold ignore_der in B. rewrite Hni, Hid in B. cbn in B. destruct B as [B|[[B1 B2]|[B1 B2]]]; [discriminate|right; auto|left; auto].
      + intros v r Hin Hfl Hw Hs. apply (D v r).
        * rewrite I1. apply filter_In. split; [apply in_points; auto|apply is_non_spec, Hw].
        * destruct Hs as [Hs|Hs]; [left; exact Hs|].
          destruct (ignore_der non_integral ignore_der0) eqn:Eig; [left; reflexivity|]. destruct B as [B|[[B1 B2]|[B1 B2]]]; [discriminate| |].
          -- destruct Hs as [[Hs1 Hs2]|[Hs1 Hs2]]; [lra|right; left; auto].
          -- destruct Hs as [[Hs1 Hs2]|[Hs1 Hs2]]; [right; right; auto|lra].
    - unfold inv. cbn [b_non b_all b_phase b_pert]. splits; auto.
  Qed.

  (* an answer of the last resort, from all the points *)
  Definition late_answer (done : list R) (nv pv : R) (nr pr : Res) (pert : option Res) : Prop :=
    In nv done /\ flash nv = Some nr /\ without nr /\ In pv done /\ flash pv = Some pr /\ with_phase pr /\
    exists p, pert = Some p /\ beyond pr p.
  Lemma nearest_phase_spec pv nv nr l : forall best dist a, nearest_phase Res value pv nv nr l best dist = Some a ->
    best = Some a \/ exists d, In (fst (fst a), snd (fst a), snd a, d) l.
  Proof.
    induction l as [|[[[v r] p] d] l IH]; intros best dist a; cbn; [auto|].
    destruct (_ && _); intros H; destruct (IH _ _ _ H) as [E|[d' E]].
    - injection E. intros <-. right. exists d. left. reflexivity.
    - right. exists d'. right. exact E.
    - left. exact E.
    - right. exists d'. right. exact E.
  Qed.
  Lemma perturb_all_spec l : forall t, (forall v r c, In (v, r, c) l -> c = check r) ->
    perturb_all Res flash check value l = Ret t -> forall v r p d, In (v, r, p, d) t -> In (v, r, check r) l /\ beyond r p.
  Proof.
    induction l as [|[[v r] c] l IH]; intros t Hc; cbn [perturb_all].
    - intros E. injection E. intros <- ? ? ? ? [].
    - destruct (perturb Res flash check value factors r c) as [[p d]|] eqn:Ep; [|discriminate].
      destruct (perturb_all Res flash check value l) as [t'|] eqn:Et; [|discriminate].
      intros E. injection E. intros <-. intros v' r' p' d' [Hin|Hin].
      + injection Hin. intros <- <- <- <-. assert (Ec : c = check r) by (apply (Hc v); left; reflexivity). subst c.
        split; [left; reflexivity|]. apply (perturb_spec factors r p d factors_range Ep).
      + destruct (IH t' (fun v r c H => Hc v r c (or_intror H)) eq_refl v' r' p' d' Hin) as [A B]. split; [right; exact A|exact B].
  Qed.
  Lemma fallback_spec done s n : inv done s ->
    match fallback Res flash check value s n with
    | Ret (nv, pv, nr, pr, pert, k) => k = n /\ late_answer done nv pv nr pr pert
    | Exn _ => True
    end.
  Proof.
    intros [I1 [I2 [I3 [I4 I5]]]]. unfold fallback. destruct (b_non Res s) as [|n0 ns] eqn:En; [exact I|].
    destruct (b_phase Res s) as [[[pv pr] cp]|]; [|exact I].
    destruct (perturb_all Res flash check value (b_all Res s)) as [t|] eqn:Et; [|exact I].
    assert (Hc : forall v r c, In (v, r, c) (b_all Res s) -> c = check r).
    { intros v r c. rewrite I2. intros H. apply in_map_iff in H as [[v' r'] [E _]]. injection E. intros <- <- <-. reflexivity. }
    assert (Hn : forall v r, In (v, r) (n0 :: ns) -> In v done /\ flash v = Some r /\ without r).
    { intros v r H. rewrite I1 in H. apply filter_In in H as [A1 A2]. apply in_points in A1 as [A1 A3]. apply is_non_spec in A2. auto. }
    revert Hn. generalize (n0 :: ns). induction l as [|[nv nr] l IH]; intros Hn; cbn [last_resort]; [exact I|].
    destruct (nearest_phase Res value pv nv nr t None (10 ^ 100)) as [[[v r] p]|] eqn:E.
    - split; [reflexivity|]. destruct (nearest_phase_spec _ _ _ _ _ _ _ E) as [E0|[d Hin]]; [discriminate|]. cbn in Hin.
      destruct (perturb_all_spec _ t Hc Et v r p d Hin) as [A B]. rewrite I2 in A. apply in_map_iff in A as [[v' r'] [E1 A]]. injection E1. intros _ -> ->.
      apply filter_In in A as [A1 A2]. apply in_points in A1 as [A1 A3]. apply is_phase_spec in A2.
      destruct (Hn nv nr (or_introl eq_refl)) as [N1 [N2 N3]]. unfold late_answer. splits; auto. exists p. auto.
    - apply IH. intros v r H. apply Hn. right. exact H.
  Qed.

  Lemma search_spec guesses : forall done s n, inv done s ->
    match search guesses (length done) n s with
    | Ret (nv, pv, nr, pr, pert, k) =>
        (exists d2, k = length d2 /\ (exists rest, done ++ guesses = d2 ++ rest) /\ direct_answer d2 nv pv nr pr pert) \/
        (k = n /\ late_answer (done ++ guesses) nv pv nr pr pert)
    | Exn _ => True
    end.
  Proof.
    induction guesses as [|iv guesses IH]; intros done s n Hs; unfold search; cbn [Model_boundary.search]; fold search.
    - rewrite app_nil_r. pose proof (fallback_spec done s n Hs) as H. destruct (fallback _ _ _ _ s n) as [[[[[[nv pv] nr] pr] pert] k]|]; [right; exact H|exact I].
    - assert (Hl : forall d, length (d ++ [iv]) = S (length d)) by (intros d; rewrite app_length; cbn; lia).
      assert (Ha : done ++ iv :: guesses = (done ++ [iv]) ++ guesses) by (rewrite <- app_assoc; reflexivity).
      destruct (flash iv) as [r|] eqn:Ef.
      + pose proof (attempt_spec (done ++ [iv]) _ (length done) (inv_record done s iv r Ef Hs)) as H.
        destruct (attempt _ _ _ _ _ _ _ (length done)) as [[[[[[[[nv pv] nr] pr] pert] k]|] s']|]; [| |exact I].
        * destruct H as [-> H]. left. exists (done ++ [iv]). splits; auto. exists guesses. exact Ha.
        * specialize (IH (done ++ [iv]) s' n H). rewrite Hl, <- Ha in IH. exact IH.
      + specialize (IH (done ++ [iv]) s n (inv_skip done s iv Ef Hs)). rewrite Hl, <- Ha in IH. exact IH.
  Qed.

  (* C61: what an answer is *)
  Theorem C61_bounds guesses nv pv nr pr pert k : generate guesses = Ret (nv, pv, nr, pr, pert, k) ->
    In nv guesses /\ flash nv = Some nr /\ without nr /\ In pv guesses /\ flash pv = Some pr /\ with_phase pr /\
    (forall p, pert = Some p -> beyond pr p) /\ (non_integral = false -> pert <> None) /\ (k <= length guesses)%nat.
  Proof.
    intros H. pose proof (search_spec guesses [] _ (length guesses) inv_start) as S. unfold generate, Model_boundary.generate in H.
    cbn [length] in S. unfold search in S. rewrite H in S. cbn [app] in S. destruct S as [[d2 [-> [[rest E] [D1 [D2 [D3 [[l1 [l2 [D4 [D5 [D6 D7]]]]] [D8' [D8 [D9 _]]]]]]]]]]|[-> [A1 [A2 [A3 [A4 [A5 [A6 [p [-> A7]]]]]]]]]].
    - rewrite E. splits; auto.
      + apply in_or_app. auto.
      + apply in_or_app. left. rewrite D4. apply in_or_app. right. left. reflexivity.
      + intros p ->. destruct non_integral eqn:Eni; [|destruct (D8 eq_refl) as [p' [E' B]]; injection E'; intros ->; exact B].
        discriminate (D8' eq_refl).
      + intros Hni. destruct (D8 Hni) as [p [-> _]]. discriminate.
      + rewrite app_length. lia.
    - splits; auto; try discriminate. intros p' E. injection E. intros <-. exact A7.
  Qed.

  (* before all the guesses have been used: the guesses tried are the first k; the phase point is the first of them that has the phase; the
     other is the nearest one without it on the side on which the amount of the phase decreases *)
  Theorem C61_direct guesses nv pv nr pr pert k : generate guesses = Ret (nv, pv, nr, pr, pert, k) -> (k < length guesses)%nat ->
    direct_answer (firstn k guesses) nv pv nr pr pert.
  Proof.
    intros H Hk. pose proof (search_spec guesses [] _ (length guesses) inv_start) as S. unfold generate, Model_boundary.generate in H.
    cbn [length] in S. unfold search in S. rewrite H in S. cbn [app] in S. destruct S as [[d2 [-> [[rest E] D]]]|[-> _]]; [|lia].
    rewrite E, firstn_app, Nat.sub_diag, firstn_all. cbn. rewrite app_nil_r. exact D.
  Qed.

  (* for a fraction to be reached: if some guess is without and some guess with the phase (values not 1e100 apart) there is an answer *)
  Theorem C61_found guesses v1 r1 v2 r2 : non_integral = true ->
    (forall v r w q, In v guesses -> In w guesses -> flash v = Some r -> flash w = Some q -> Rabs (value r - value q) < 10 ^ 100) ->
    In v1 guesses -> flash v1 = Some r1 -> without r1 -> In v2 guesses -> flash v2 = Some r2 -> with_phase r2 ->
    exists a, generate guesses = Ret a.
  Proof.
    intros Hni Hd Hv1 Hf1 Hw1 Hv2 Hf2 Hw2.
    assert (G : forall l done s n, done ++ l = guesses -> inv done s -> b_non Res s = [] \/ b_phase Res s = None -> exists a, search l (length done) n s = Ret a).
    { induction l as [|iv l IH]; intros done s n El Hinv Hor; unfold search; cbn [Model_boundary.search]; fold search.
      - exfalso. rewrite app_nil_r in El. subst done. destruct Hinv as [I1 [I2 [I3 _]]]. destruct Hor as [Hor|Hor].
        + rewrite I1 in Hor. assert (Hin : In (v1, r1) []) by (rewrite <- Hor; apply filter_In; split; [apply in_points; auto|apply is_non_spec, Hw1]). destruct Hin.
        + rewrite I3, I2 in Hor. assert (Hin : In (v2, r2, check r2) (map (fun q : R * Res => (fst q, snd q, check (snd q))) (filter (fun q => is_phase non_integral (check (snd q))) (points guesses)))).
          { apply in_map_iff. exists (v2, r2). split; [reflexivity|]. apply filter_In. split; [apply in_points; auto|apply is_phase_spec, Hw2]. }
          destruct (map _ _); [destruct Hin|discriminate].
      - assert (Hl : length (done ++ [iv]) = S (length done)) by (rewrite app_length; cbn; lia).
        assert (Ha : (done ++ [iv]) ++ l = guesses) by (rewrite <- app_assoc; exact El).
        destruct (flash iv) as [r|] eqn:Ef; [|rewrite <- Hl; apply IH; [exact Ha|apply inv_skip; assumption|exact Hor]].
        pose proof (inv_record done s iv r Ef Hinv) as Hinv'. set (s1 := record Res check non_integral s iv r) in *.
        pose proof Hinv' as [I1 [I2 [I3 [I4 I5]]]]. unfold attempt.
        destruct (b_non Res s1) as [|n0 ns] eqn:En; [rewrite <- Hl; apply IH; auto|].
        destruct (b_phase Res s1) as [[[pv pr] cp]|] eqn:Ep; [|rewrite <- Hl; apply IH; auto].
        rewrite (I5 Hni). replace (if non_integral then _ else _) with (@Ret (option (Res * bool)) None) by (rewrite Hni; reflexivity).
        destruct (nearest _ _ _ _ _ pv pr (n0 :: ns) None (10 ^ 100)) as [[nv nr]|] eqn:Enear; [eexists; reflexivity|].
        exfalso. destruct n0 as [nv nr].
        assert (Hin : In (nv, nr) ((nv, nr) :: ns)) by (left; reflexivity).
        pose proof (nearest_none _ _ _ _ _ nv nr Enear Hin) as Hfar. unfold ignore_der in Hfar. rewrite Hni in Hfar. specialize (Hfar (or_introl eq_refl)).
        rewrite I1 in Hin. apply filter_In in Hin as [Hin _]. apply in_points in Hin as [Hin1 Hin2].
        assert (Hd0 := eq_sym I3). rewrite I2 in Hd0. destruct (hd_first _ _ _ _ Hd0) as [_ [l1 [l2 [E1 [E2 _]]]]].
        assert (Hpv : In pv (done ++ [iv])) by (rewrite E1; apply in_or_app; right; left; reflexivity).
        assert (Hlt := Hd nv nr pv pr). rewrite <- Ha in Hlt. specialize (Hlt (in_or_app _ _ _ (or_introl Hin1)) (in_or_app _ _ _ (or_introl Hpv)) Hin2 E2). lra. }
    apply (G guesses [] _ (length guesses)); [reflexivity|apply inv_start|left; reflexivity].
  Qed.
End Boundary.

(* the guesses: a hot start first, then the caller's, then the fixed ones *)
Theorem C61_guesses hot caller fixed v : In v (all_guesses hot caller fixed) <-> hot = Some v \/ (exists l, caller = Some l /\ In v l) \/ In v fixed.
Proof.
  unfold all_guesses. rewrite !in_app_iff. split.
  - intros [H|[H|H]]; [left|right; left|right; right; exact H].
    + destruct hot; [destruct H as [->|[]]; reflexivity|destruct H].
    + destruct caller; [eauto|destruct H].
  - intros [->|[[l [-> H]]|H]]; [left; left; reflexivity|right; left; exact H|right; right; exact H].
Qed.

(* --- refutations: a result is the value itself, and the amount of the phase is a function of it --- *)
Lemma perturb_growing (chk : R -> R) v : 0 < v -> 0 <= chk (v * (1 + / 10 ^ 4)) -> chk v < chk (v * (1 + / 10 ^ 4)) ->
  perturb R (fun v => Some v) chk (fun v => v) factors v (chk v) = Ret (v * (1 + / 10 ^ 4), true).
Proof.
  intros Hv Hc Hg. unfold factors. cbn [perturb]. assert (Hp : 0 < v * / 10 ^ 4) by (apply Rmult_lt_0_compat; [exact Hv|apply Rinv_0_lt_compat, pow_lt; lra]).
  replace (v * (1 + / 10 ^ 4) - v) with (v * / 10 ^ 4) by ring.
  destruct (Reqb_spec (v * / 10 ^ 4) 0); [lra|]. destruct (Rleb_spec 0 (chk (v * (1 + / 10 ^ 4)))); [|lra].
  destruct (Rltb_spec 0 ((chk (v * (1 + / 10 ^ 4)) - chk v) / (v * / 10 ^ 4))) as [|H]; [reflexivity|]. exfalso. apply H. apply Rdiv_lt_0_compat; lra.
Qed.
Ltac dec := repeat match goal with
  | |- context [Rltb ?a ?b] => destruct (Rltb_spec a b); try lra
  | |- context [Rleb ?a ?b] => destruct (Rleb_spec a b); try lra
  | |- context [Reqb ?a ?b] => destruct (Reqb_spec a b); try lra
  end.

(* Claimed (comment in the code): the point kept is the one with the lowest amount of the phase. Refuted: the amount is compared with
   itself, the first point found is kept. Here 3 has less of the phase than 2, and 2 is returned. *)
Definition chk_low (v : R) : R := if Rleb v 1 then -1 else if Rltb v 2.5 then v / 4 else 1 / 4.
Theorem C61_lowest_refuted : exists p, generate R (fun v => Some v) chk_low (fun v => v) false false [2; 3; 1] = Ret (1, 2, 1, 2, Some p, 3%nat) /\ 0 <= chk_low 3 < chk_low 2.
Proof.
  assert (E10 : / 10 ^ 4 = / 10000) by (f_equal; ring).
  assert (C1 : chk_low 1 = -1) by (unfold chk_low; dec; reflexivity).
  assert (C2 : chk_low 2 = 1 / 2) by (unfold chk_low; dec; lra).
  assert (C3 : chk_low 3 = 1 / 4) by (unfold chk_low; dec; lra).
  assert (C4 : chk_low (2 * (1 + / 10 ^ 4)) = (2 * (1 + / 10000)) / 4) by (rewrite E10; unfold chk_low; dec; lra).
  exists (2 * (1 + / 10 ^ 4)). split; [|lra].
  unfold generate. cbn [search length]. unfold record at 1. cbn [b_non b_all b_phase b_pert app]. unfold is_non, is_phase. rewrite C2. dec.
  unfold attempt at 1. cbn [b_non]. cbn [search]. unfold record at 1. cbn [b_non b_all b_phase b_pert app]. unfold is_non, is_phase. rewrite C3. dec.
  unfold attempt at 1. cbn [b_non]. cbn [search]. unfold record at 1. cbn [b_non b_all b_phase b_pert app]. unfold is_non, is_phase. rewrite C1. dec.
  unfold attempt at 1. cbn [b_non b_all b_phase b_pert]. rewrite <- C2, (perturb_growing chk_low 2) by (rewrite ?C4, ?C2; lra).
  cbn [nearest]. unfold ignore_der. cbn [orb andb negb]. destruct (Rltb_spec 1 2); [|lra].
  rewrite (Rabs_left (1 - 2)) by lra. destruct (Rltb_spec (- (1 - 2)) (10 ^ 100)) as [|H]; [reflexivity|].
  exfalso. apply H. assert (1 < 10 ^ 100) by (apply Rlt_pow_R1; [lra|lia]). lra.
Qed.

(* Claimed: when the point kept leads nowhere, any other point with the phase is used with a point without it on the side where the amount
   decreases. Refuted: the side is judged with the first point. Here 20 has no phase, the amount at 30 grows with the value, and the search
   fails, because 20 is not below 10. *)
Definition chk_late (v : R) : R := if Rltb v 15 then v / 100 else if Rltb v 25 then -1 else v / 100.
Theorem C61_late_refuted : generate R (fun v => Some v) chk_late (fun v => v) false false [10; 20; 30] = Exn Unbounded /\
  chk_late 20 = -1 /\ 0 < chk_late 30 /\ exists p, grows R (fun v => Some v) chk_late (fun v => v) 30 p.
Proof.
  assert (E10 : / 10 ^ 4 = / 10000) by (f_equal; ring).
  assert (C1 : chk_late 10 = 1 / 10) by (unfold chk_late; dec; lra).
  assert (C2 : chk_late 20 = -1) by (unfold chk_late; dec; lra).
  assert (C3 : chk_late 30 = 3 / 10) by (unfold chk_late; dec; lra).
  assert (C4 : chk_late (10 * (1 + / 10 ^ 4)) = (10 * (1 + / 10000)) / 100) by (rewrite E10; unfold chk_late; dec; lra).
  assert (C5 : chk_late (30 * (1 + / 10 ^ 4)) = (30 * (1 + / 10000)) / 100) by (rewrite E10; unfold chk_late; dec; lra).
  splits; try lra.
  - unfold generate. cbn [search length]. unfold record at 1. cbn [b_non b_all b_phase b_pert app]. unfold is_non, is_phase. rewrite C1. dec.
    unfold attempt at 1. cbn [b_non]. cbn [search]. unfold record at 1. cbn [b_non b_all b_phase b_pert app]. unfold is_non, is_phase. rewrite C2. dec.
    unfold attempt at 1. cbn [b_non b_all b_phase b_pert]. rewrite <- C1, (perturb_growing chk_late 10) by (rewrite ?C4, ?C1; lra).
    cbn [nearest]. unfold ignore_der. cbn [orb andb negb]. destruct (Rltb_spec 20 10); [lra|]. cbn [andb].
    cbn [search]. unfold record at 1. cbn [b_non b_all b_phase b_pert app]. unfold is_non, is_phase. rewrite C3.
    destruct (Reqb_spec (3 / 10) (-1)); [lra|]. destruct (Rleb_spec 0 (3 / 10)); [|lra]. destruct (Rltb_spec (chk_late 10) (chk_late 10)); [lra|].
    unfold attempt at 1. cbn [b_non b_all b_phase b_pert].
    cbn [nearest]. unfold ignore_der. cbn [orb andb negb]. destruct (Rltb_spec 20 10); [lra|]. cbn [andb].
    unfold fallback. cbn [b_non b_all b_phase b_pert perturb_all].
    rewrite (perturb_growing chk_late 10) by (rewrite ?C4, ?C1; lra). rewrite <- C3, (perturb_growing chk_late 30) by (rewrite ?C5, ?C3; lra).
    cbn [last_resort nearest_phase negb andb orb]. destruct (Rltb_spec 20 10); [lra|]. reflexivity.
  - exists (30 * (1 + / 10 ^ 4)). exists (/ 10 ^ 4). splits.
    + apply Rinv_le_contravar; [apply pow_lt; lra|apply Rle_pow; [lra|lia]].
    + lra.
    + reflexivity.
    + rewrite C5, C3, E10. apply Rdiv_lt_0_compat; lra.
Qed.

(* the fraction 1/2 of a phase whose amount is v - 1/2 above it *)
Example C61_hypotheses_met : exists a, generate R (fun v => if Rltb v 3 then Some v else None) (fun v => v - 1 / 2) (fun v => v) true false [5; 1; 0] = Ret a.
Proof.
  apply (C61_found R _ _ _ true false [5; 1; 0] 0 0 1 1); try reflexivity.
  - intros v r w q Hv Hw. cbv beta. destruct (Rltb_spec v 3); [|discriminate]. destruct (Rltb_spec w 3); [|discriminate].
    intros E1 E2. injection E1. injection E2. intros <- <-.
    assert (1 < 10 ^ 100) by (apply Rlt_pow_R1; [lra|lia]).
    destruct Hv as [<-|[<-|[<-|[]]]]; destruct Hw as [<-|[<-|[<-|[]]]]; try lra; unfold Rabs; destruct (Rcase_abs _); lra.
  - cbn; auto.
  - cbv beta. dec; reflexivity.
  - unfold without. lra.
  - cbn; auto.
  - cbv beta. dec; reflexivity.
  - unfold with_phase. lra.
Qed.
