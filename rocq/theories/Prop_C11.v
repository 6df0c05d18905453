(* C11: which roots become phases. *)
From Coq Require Import Reals List Bool Lra Lia Permutation.
From Verif Require Import Base BaseFacts Model_roots.
Open Scope R_scope.
Import ListNotations.

(* ---- specification *)
(* a root (x + iy) is real for the code's purposes, and larger than the covolume *)
Definition admissible (b : R) (V : R * R) (v : R) : Prop :=
  v = fst V /\ (fst V = 0 \/ snd V = 0 \/ Rabs (snd V / fst V) < 1 / 1000000000000) /\ b < v.
Definition has (b : R) (Vs : list (R * R)) (v : R) : Prop := exists V, In V Vs /\ admissible b V v.
Definition least (A : R -> Prop) (m : R) := A m /\ forall v, A v -> m <= v.
Definition greatest (A : R -> Prop) (m : R) := A m /\ forall v, A v -> v <= m.
(* volumes in floating point range *)
Definition in_range (b : R) (Vs : list (R * R)) : Prop := - huge <= b /\ forall v, has b Vs v -> v < huge.

(* ---- the scan *)
Lemma scan_step_spec b c mn mx V :
  (exists v, admissible b V v /\ scan_step b (c, mn, mx) V = (S c, Rmin mn v, Rmax mx v)) \/
  ((forall v, ~ admissible b V v) /\ scan_step b (c, mn, mx) V = (c, mn, mx)).
Proof.
  destruct V as [re im]. unfold scan_step, admissible. cbn [fst snd].
  assert (B : (Reqb re 0 || Reqb im 0 || Rltb (Rabs (im / re)) (1 / 1000000000000))%bool = true <-> (re = 0 \/ im = 0 \/ Rabs (im / re) < 1 / 1000000000000)).
  { rewrite !orb_true_iff. unfold Reqb, Rltb. destruct (Req_EM_T re 0), (Req_EM_T im 0), (Rlt_dec (Rabs (im / re)) (1 / 1000000000000)); intuition congruence. }
  destruct (Reqb re 0 || Reqb im 0 || Rltb (Rabs (im / re)) (1 / 1000000000000))%bool.
  - unfold Rleb. destruct (Rle_dec re b) as [L|L].
    + right. split; auto. intros v [-> [_ Q]]. lra.
    + left. exists re. split. { split; auto. split; [apply B; auto|lra]. }
      f_equal; [f_equal|]; unfold Rltb.
      * destruct (Rlt_dec re mn); [rewrite Rmin_right by lra|rewrite Rmin_left by lra]; auto.
      * destruct (Rlt_dec mx re); [rewrite Rmax_right by lra|rewrite Rmax_left by lra]; auto.
  - right. split; auto. intros v [_ [Q _]]. apply B in Q. discriminate.
Qed.
(* the scan computes a fold over the admissible values *)
Fixpoint good (b : R) (Vs : list (R * R)) : list R :=
  match Vs with
  | nil => nil
  | V :: Vs => let '(c, _, _) := scan_step b (O, 0, 0) V in if Nat.eqb c 1 then fst V :: good b Vs else good b Vs
  end.
Lemma good_in b Vs v : In v (good b Vs) <-> has b Vs v.
Proof.
  induction Vs as [|V Vs IH]. { simpl. split; [tauto|intros [V [[] _]]]. }
  cbn [good]. destruct (scan_step_spec b O 0 0 V) as [[w [Hw E]]|[Hn E]]; rewrite E; cbn [Nat.eqb].
  - destruct Hw as [Hw1 Hw2]. rewrite <- Hw1. split.
    + intros [Q|Q]. { subst w. exists V. split; [left; auto|]. subst v. split; auto. } apply IH in Q. destruct Q as [W [Q1 Q2]]. exists W. split; [right|]; auto.
    + intros [W [[Q1|Q1] Q2]]. { left. subst W. destruct Q2 as [Q2 _]. congruence. } right. apply IH. exists W. auto.
  - rewrite IH. split; intros [W [Q1 Q2]]; exists W; split; auto. right; auto. destruct Q1; auto. subst W. destruct (Hn v Q2).
Qed.
Lemma scan_good b Vs : forall c mn mx, fold_left (scan_step b) Vs (c, mn, mx) =
  ((c + length (good b Vs))%nat, fold_left Rmin (good b Vs) mn, fold_left Rmax (good b Vs) mx).
Proof.
  induction Vs as [|V Vs IH]; intros c mn mx. { simpl. rewrite Nat.add_0_r. auto. }
  cbn [fold_left good]. destruct (scan_step_spec b O 0 0 V) as [[w [Hw E]]|[Hn E]]; rewrite E; cbn [Nat.eqb];
  destruct (scan_step_spec b c mn mx V) as [[w' [Hw' E']]|[Hn' E']]; rewrite E', IH.
  - destruct Hw as [-> _]. destruct Hw' as [-> _]. cbn [length fold_left]. f_equal. f_equal. lia.
  - destruct (Hn' w Hw).
  - destruct (Hn w' Hw').
  - reflexivity.
Qed.
Lemma fold_min l : forall m, let r := fold_left Rmin l m in r <= m /\ (forall v, In v l -> r <= v) /\ (r = m \/ In r l).
Proof.
  induction l as [|x l IH]; intros m; cbn [fold_left]. { cbv zeta. split; [lra|]. split; [intros v []|left; auto]. }
  specialize (IH (Rmin m x)). cbv zeta in *. destruct IH as [H1 [H2 H3]]. pose proof (Rmin_l m x). pose proof (Rmin_r m x). splits.
  - lra.
  - intros v [->|Hv]; auto. lra.
  - destruct H3 as [H3|H3]; [|right; right; auto]. rewrite H3. destruct (Rle_dec m x); [left; apply Rmin_left; auto|right; left; symmetry; apply Rmin_right; lra].
Qed.
Lemma fold_max l : forall m, let r := fold_left Rmax l m in m <= r /\ (forall v, In v l -> v <= r) /\ (r = m \/ In r l).
Proof.
  induction l as [|x l IH]; intros m; cbn [fold_left]. { cbv zeta. split; [lra|]. split; [intros v []|left; auto]. }
  specialize (IH (Rmax m x)). cbv zeta in *. destruct IH as [H1 [H2 H3]]. pose proof (Rmax_l m x). pose proof (Rmax_r m x). splits.
  - lra.
  - intros v [->|Hv]; auto. lra.
  - destruct H3 as [H3|H3]; [|right; right; auto]. rewrite H3. destruct (Rle_dec m x); [right; left; symmetry; apply Rmax_right; auto|left; apply Rmax_left; lra].
Qed.
Lemma huge_pos : 0 < huge.
Proof. unfold huge. apply IZR_lt. reflexivity. Qed.
(* result of the scan on a root list in range *)
Lemma scan_spec b Vs : in_range b Vs ->
  match scan b Vs with
  | (c, mn, mx) => (c = O -> (forall v, ~ has b Vs v) /\ mn = huge /\ mx = - huge) /\
      (c <> O -> least (has b Vs) mn /\ greatest (has b Vs) mx /\ mn <> huge) /\ (c = 1%nat -> mn = mx)
  end.
Proof.
  intros [Hb HR]. unfold scan. rewrite scan_good. rewrite Nat.add_0_l. pose proof huge_pos as Hh.
  destruct (fold_min (good b Vs) huge) as [A1 [A2 A3]]. destruct (fold_max (good b Vs) (- huge)) as [B1 [B2 B3]]. cbv zeta in *.
  assert (HI := good_in b Vs). splits.
  - intros H. apply length_zero_iff_nil in H. rewrite H in *. splits; auto. intros v Hv. apply HI in Hv. destruct Hv.
  - intros H. destruct (good b Vs) as [|x l] eqn:E. { destruct (H eq_refl). } rewrite <- E in *. clear E.
    assert (Hx : exists x, In x (good b Vs)). { destruct (good b Vs); [destruct (H eq_refl)|]. exists r. left. auto. } destruct Hx as [y Hy].
    assert (Hy' := proj1 (HI y) Hy). assert (b < y) by (destruct Hy' as [? [_ [_ [_ Q]]]]; auto). pose proof (HR y Hy'). pose proof (A2 y Hy). pose proof (B2 y Hy). unfold least, greatest. splits.
    + apply HI. destruct A3; auto. lra.
    + intros v Hv. apply A2. apply HI. auto.
    + apply HI. destruct B3; auto. lra.
    + intros v Hv. apply B2. apply HI. auto.
    + lra.
  - intros H. destruct (good b Vs) as [|x [|y l]] eqn:E; try discriminate. cbn [fold_left].
    assert (Hx : has b Vs x) by (apply HI; left; auto). pose proof (HR x Hx). assert (b < x) by (destruct Hx as [? [_ [_ [_ Q]]]]; auto).
    rewrite Rmin_right, Rmax_right by lra. auto.
Qed.

Lemma least_unique A m m' : least A m -> least A m' -> m = m'.
Proof. intros [H1 H2] [K1 K2]. apply Rle_antisym; auto. Qed.
Lemma greatest_unique A m m' : greatest A m -> greatest A m' -> m = m'.
Proof. intros [H1 H2] [K1 K2]. apply Rle_antisym; auto. Qed.

(* ---- raises exactly when there is no admissible root *)
Theorem C11_raises pip crit b Vs ol og s : in_range b Vs -> (set_from_PT pip crit b Vs ol og s = None <-> forall v, ~ has b Vs v).
Proof.
  intros HR. pose proof (scan_spec b Vs HR) as HS. unfold set_from_PT. destruct (scan b Vs) as [[c mn] mx]. destruct HS as [H0 [H1 H2]]. pose proof huge_pos.
  destruct c as [|c].
  - destruct (H0 eq_refl) as [N [-> ->]]. cbn [Nat.eqb orb Nat.ltb Nat.leb]. rewrite Reqb_false by lra. tauto.
  - destruct (H1 ltac:(lia)) as [[L1 L2] _]. split; [|intros N; destruct (N mn L1)].
    destruct (Nat.eqb (S c) 1 || Reqb mn mx)%bool eqn:E.
    + destruct (set_properties _ _ _ _ _). destruct crit; [destruct (set_properties _ _ _ _ _)|]; discriminate.
    + assert (Nat.ltb 1 (S c) = true) as ->. { apply Nat.ltb_lt. destruct c; [cbn in E; discriminate|lia]. } discriminate.
Qed.
(* ---- two or more different admissible roots: liquid from the smallest, vapor from the largest, unless told to set only one of them *)
Theorem C11_two pip crit b Vs ol og s v w : in_range b Vs -> has b Vs v -> has b Vs w -> v <> w ->
  exists mn mx, least (has b Vs) mn /\ greatest (has b Vs) mx /\ mn < mx /\
  set_from_PT pip crit b Vs ol og s = Some (mk (if og then V_l s else Some mn) (if ol then V_g s else Some mx) (Some LiqGas)).
Proof.
  intros HR Hv Hw Hd. pose proof (scan_spec b Vs HR) as HS. unfold set_from_PT. destruct (scan b Vs) as [[c mn] mx]. destruct HS as [H0 [H1 H2]].
  destruct c as [|c]. { destruct (H0 eq_refl) as [N _]. destruct (N v Hv). }
  destruct (H1 ltac:(lia)) as [L [G _]]. exists mn, mx. 
  assert (Hlt : mn < mx). { destruct (proj1 (Rdichotomy v w) Hd) as [Q|Q] || destruct (Rdichotomy v w Hd) as [Q|Q].
    - pose proof (proj2 L v Hv). pose proof (proj2 G w Hw). lra. - pose proof (proj2 L w Hw). pose proof (proj2 G v Hv). lra. }
  splits; auto. destruct c as [|c]. { specialize (H2 eq_refl). lra. }
  rewrite Reqb_false by lra. cbn [Nat.eqb orb]. change (Nat.ltb 1 (S (S c))) with true. cbv iota.
  destruct s as [sl sg sp]. destruct ol, og; reflexivity.
Qed.
(* ---- all admissible roots equal: one phase, named by the phase identification parameter; at the critical point the root is both *)
Theorem C11_single pip b Vs ol og s v : in_range b Vs -> has b Vs v -> (forall w, has b Vs w -> w = v) ->
  set_from_PT pip false b Vs ol og s =
    Some (if Rlt_dec (1 + 1 / 100000000000000) (pip v) then mk (Some v) (V_g s) (Some Liq) else mk (V_l s) (Some v) (Some Gas)) /\
  set_from_PT pip true b Vs ol og s = Some (mk (Some v) (Some v) (Some LiqGas)).
Proof.
  intros HR Hv Hu. pose proof (scan_spec b Vs HR) as HS. unfold set_from_PT. destruct (scan b Vs) as [[c mn] mx]. destruct HS as [H0 [H1 H2]].
  destruct c as [|c]. { destruct (H0 eq_refl) as [N _]. destruct (N v Hv). }
  destruct (H1 ltac:(lia)) as [[L1 L2] [[G1 G2] Hh]]. pose proof (Hu mn L1). pose proof (Hu mx G1). subst mn mx.
  rewrite (Reqb_true v v) by auto. rewrite orb_true_r. cbv zeta. rewrite (Reqb_false v huge) by auto. cbn [negb].
  unfold set_properties. cbn [orb andb negb]. replace (1 + 1 / 100000000000000) with (100000000000001 / 100000000000000) by lra.
  unfold Rltb. destruct (Rlt_dec (100000000000001 / 100000000000000) (pip v)); destruct s as [sl sg sp]; cbn; split; auto.
Qed.
(* every volume set is an admissible root: real (imaginary part at most 1e-12 of the real part) and above b *)
Theorem C11_only_admissible pip crit b Vs ol og s' : in_range b Vs -> set_from_PT pip crit b Vs ol og fresh = Some s' ->
  (forall v, V_l s' = Some v \/ V_g s' = Some v -> has b Vs v) /\ ph s' <> None /\
  (ph s' = Some Liq -> V_l s' <> None /\ V_g s' = None) /\ (ph s' = Some Gas -> V_l s' = None /\ V_g s' <> None).
Proof.
  intros HR HS. 
  assert (A : (forall v, ~ has b Vs v) \/ exists v, has b Vs v).
  { destruct (good b Vs) as [|x l] eqn:E; [left|right; exists x; apply good_in; rewrite E; left; auto]. intros v Hv. apply good_in in Hv. rewrite E in Hv. destruct Hv. }
  destruct A as [A|[v Hv]]. { apply (C11_raises pip crit b Vs ol og fresh HR) in A. rewrite A in HS. discriminate. }
  assert (B : (exists w, has b Vs w /\ w <> v) \/ forall w, has b Vs w -> w = v).
  { destruct (List.existsb (fun w => negb (Reqb w v)) (good b Vs)) eqn:E.
    - left. apply existsb_exists in E. destruct E as [w [E1 E2]]. exists w. split; [apply good_in; auto|]. intros ->. rewrite Reqb_true in E2 by auto. discriminate.
    - right. intros w Hw. apply good_in in Hw. destruct (Req_dec w v) as [|N]; auto. exfalso.
      assert (T : existsb (fun w => negb (Reqb w v)) (good b Vs) = true) by (apply existsb_exists; exists w; rewrite Reqb_false by auto; auto). congruence. }
  destruct B as [[w [Hw N]]|B].
  - destruct (C11_two pip crit b Vs ol og fresh w v HR Hw Hv N) as [mn [mx [[L _] [[G _] [_ E]]]]]. rewrite E in HS. injection HS as <-. cbn. splits; try congruence.
    intros u [Q|Q]; [destruct og|destruct ol]; cbn in Q; try discriminate; injection Q as <-; auto.
  - destruct (C11_single pip b Vs ol og fresh v HR Hv B) as [E1 E2]. destruct crit; [rewrite E2 in HS|rewrite E1 in HS]; injection HS as <-; cbn.
    + splits; try congruence. intros u [Q|Q]; injection Q as <-; auto.
    + destruct (Rlt_dec _ _); cbn; (split; [intros u [Q|Q]; try discriminate; injection Q as <-; auto|split; [congruence|split; intros Q; try discriminate; split; congruence]]).
Qed.
(* ---- the order of the roots does not matter *)
Theorem C11_permutation pip crit b Vs Vs' ol og s : Permutation Vs Vs' ->
  set_from_PT pip crit b Vs ol og s = set_from_PT pip crit b Vs' ol og s.
Proof.
  intros HP. unfold set_from_PT. replace (scan b Vs') with (scan b Vs); auto. unfold scan. rewrite !scan_good.
  assert (PG : Permutation (good b Vs) (good b Vs')).
  { clear -HP. induction HP; cbn [good]; auto.
    - destruct (scan_step b (O, 0, 0) x) as [[c u] w]. destruct (Nat.eqb c 1); auto.
    - destruct (scan_step b (O, 0, 0) x) as [[c u] w]. destruct (scan_step b (O, 0, 0) y) as [[c' u'] w']. destruct (Nat.eqb c 1), (Nat.eqb c' 1); auto. constructor.
    - eapply perm_trans; eauto. }
  assert (F : forall (f : R -> R -> R) (C : forall a x y, f (f a x) y = f (f a y) x) l l', Permutation l l' -> forall a, fold_left f l a = fold_left f l' a).
  { clear. intros f C l l' H. induction H; intros a; cbn; auto. - rewrite C. auto. - rewrite IHPermutation1; auto. }
  rewrite (Permutation_length PG). f_equal; [f_equal|]; apply F; auto; intros a x y.
  - rewrite <- !Rmin_assoc. f_equal. apply Rmin_comm.
  - rewrite <- !Rmax_assoc. f_equal. apply Rmax_comm.
Qed.
(* ---- specified volume: with b >= 0 the two placeholder roots 1j are ignored *)
Theorem C11_specified_volume pip b V : 0 <= b -> b < V -> V < huge ->
  solve_with_V pip false b V fresh = Some (if Rlt_dec (1 + 1 / 100000000000000) (pip V) then mk (Some V) None (Some Liq) else mk None (Some V) (Some Gas)).
Proof.
  intros Hb HV Hh. pose proof huge_pos. unfold solve_with_V.
  assert (A : forall v, has b [(V, 0); (0, 1); (0, 1)] v <-> v = V).
  { intros v. split.
    - intros [W [[<-|[<-|[<-|[]]]] [Q1 [_ Q2]]]]; cbn in *; auto; lra.
    - intros ->. exists (V, 0). split; [left; auto|]. split; [auto|]. split; auto. }
  destruct (C11_single pip b [(V, 0); (0, 1); (0, 1)] false false fresh V) as [E _]; auto.
  - split; [lra|]. intros v Hv. apply A in Hv. lra.
  - apply A. auto.
  - intros w Hw. apply A. auto.
Qed.
(* with a negative covolume (a volume translation c larger than b0) the placeholders are taken for a liquid of zero volume *)
Theorem C11_negative_covolume_refuted : exists b V, b < 0 /\ b < V /\ 0 < V /\ forall pip,
  solve_with_V pip false b V fresh = Some (mk (Some 0) (Some V) (Some LiqGas)).
Proof.
  exists (-1), 1. splits; try lra. intros pip. unfold solve_with_V. pose proof huge_pos as Hh.
  assert (1 < huge) by (unfold huge; apply IZR_lt; reflexivity).
  assert (H1 : has (-1) [(1, 0); (0, 1); (0, 1)] 1). { exists (1, 0). split; [left; auto|]. split; [auto|]. split; cbn; auto; lra. }
  assert (H0 : has (-1) [(1, 0); (0, 1); (0, 1)] 0). { exists (0, 1). split; [right; left; auto|]. split; [auto|]. split; cbn; auto; lra. }
  assert (HA : forall v, has (-1) [(1, 0); (0, 1); (0, 1)] v -> v = 1 \/ v = 0). { intros v [W [[<-|[<-|[<-|[]]]] [Q1 _]]]; cbn in *; auto. }
  destruct (C11_two pip false (-1) [(1, 0); (0, 1); (0, 1)] false false fresh 1 0) as [mn [mx [[L1 L2] [[G1 G2] [_ E]]]]]; auto; try lra.
  - split; [lra|]. intros v Hv. apply HA in Hv. lra.
  - rewrite E. cbn. pose proof (L2 0 H0). pose proof (L2 1 H1). pose proof (G2 1 H1). apply HA in L1. apply HA in G1.
    replace mn with 0 by (destruct L1; lra). replace mx with 1 by (destruct G1; lra). auto.
Qed.
(* ---- more_stable_phase: the phase of lower departure Gibbs energy, or the one that exists *)
Theorem C11_more_stable G s : 
  (forall vl vg, V_l s = Some vl -> V_g s = Some vg -> (more_stable_phase G s = Liq <-> G vl < G vg) /\ (more_stable_phase G s = Gas <-> G vg <= G vl)) /\
  (V_l s = None -> V_g s <> None -> more_stable_phase G s = Gas) /\ (V_g s = None -> V_l s <> None -> more_stable_phase G s = Liq).
Proof.
  unfold more_stable_phase. splits.
  - intros vl vg -> ->. unfold Rltb. destruct (Rlt_dec (G vl) (G vg)); split; split; intros; auto; try discriminate; lra.
  - intros -> H. destruct (V_g s); congruence.
  - intros -> H. destruct (V_l s); auto.
Qed.
Example C11_hypotheses_met : in_range 1 [(3, 0); (2, 0); (5, 7)] /\ has 1 [(3, 0); (2, 0); (5, 7)] 2 /\ has 1 [(3, 0); (2, 0); (5, 7)] 3 /\ ~ has 1 [(3, 0); (2, 0); (5, 7)] 5.
Proof.
  pose proof huge_pos. assert (10 < huge) by (unfold huge; apply IZR_lt; reflexivity). splits.
  - split; [lra|]. intros v [W [[<-|[<-|[<-|[]]]] [Q1 _]]]; cbn in *; lra.
  - exists (2, 0). split; [right; left; auto|]. split; [auto|]. split; cbn; auto; lra.
  - exists (3, 0). split; [left; auto|]. split; [auto|]. split; cbn; auto; lra.
  - intros [W [[<-|[<-|[<-|[]]]] [Q1 [Q2 _]]]]; cbn in *; try lra. rewrite Rabs_right in Q2; lra.
Qed.
