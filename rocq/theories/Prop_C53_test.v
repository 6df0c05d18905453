(* C53: what the stability test makes of the trials. *)
From Coq Require Import Reals Lra Lia List Bool Arith FunctionalExtensionality.
From Verif Require Import Base BaseFacts Model_ss Model_stability Spec_split SsFacts Prop_C52 Prop_C53.
Import ListNotations.
Open Scope R_scope.

(* ---- the specification ---- *)
Definition mean_distance (N : nat) (e a : comp) : R := rsum N (fun i => Rabs (e i - a i)) / INR N.
Definition mean_relative_distance (N : nat) (e a : comp) : R := rsum N (fun i => Rabs (1 - e i / (if Req_EM_T (a i) 0 then 1 else a i))) / INR N.
(* a trial that says something: it moved away from the feed, it is not the trivial solution, and the phase it found is none of the known ones *)
Record informative (N : nat) (z : comp) (known : list comp) (t : trial) : Prop := {
  inf_moved : exists i, (i < N)%nat /\ z i <> t_trial_zs t i;
  inf_sum : 1 / 10 ^ 9 <= Rabs (t_sum t - 1) <= 10 ^ 20;
  inf_K : 1 / 10 ^ 7 <= rsum N (fun i => Rsqr (ln (t_Ks t i)));
  inf_new : forall e, In e known -> 1 / 10 ^ 4 <= mean_distance N e (t_appearing_zs t) /\ 2 / 100 <= mean_relative_distance N e (t_appearing_zs t) }.
(* the fraction of the appearing phase, with the margin allowed for *)
Definition splits_feed (t : trial) : Prop := - (1 / 10 ^ 6) <= t_V t <= 1 + 1 / 10 ^ 6.
(* guess number k shows the feed to be unstable *)
Definition shows_unstable (N : nat) (z : comp) (known : list comp) (trials : list (option trial)) (k : nat) (t : trial) : Prop :=
  nth_error trials k = Some (Some t) /\ informative N z known t /\ splits_feed t.
(* d is the distance of the appearing phase from the nearest known one *)
Definition nearest (N : nat) (known : list comp) (a : comp) (d : R) : Prop :=
  (exists e, In e known /\ d = mean_distance N e a) /\ forall e, In e known -> d <= mean_distance N e a.
(* what is reported of guess number k *)
Definition report (N : nat) (k : nat) (t : trial) : stab_solution :=
  {| w_trial_zs := t_trial_zs t; w_appearing_zs := t_appearing_zs t; w_V := t_V t; w_i := k; w_sum_criteria := Rabs (t_sum t - 1);
     w_lnK2 := rsum N (fun i => Rsqr (ln (t_Ks t i))); w_dG := t_dG t |}.
Definition known_phases (z : comp) (existing : option (list comp)) : list comp := match existing with Some l => l | None => [z] end.

(* ---- the checks of one trial ---- *)
Definition checks (N : nat) (zs : vec) (existing : list vec) (t : trial) : option R :=
  if same_list N zs (t_trial_zs t) then None
  else if (Rltb (Rabs (t_sum t - 1)) (1 / 10 ^ 9) || Rltb (lnK_2_tot N (t_Ks t)) (1 / 10 ^ 7) || Rltb (10 ^ 20) (Rabs (t_sum t - 1)))%bool then None
  else if Nat.eqb (length existing) 0 then Some 0 else scan_existing N existing (t_appearing_zs t) (10 ^ 100).
Lemma same_list_spec N a b : same_list N a b = false <-> exists i, (i < N)%nat /\ a i <> b i.
Proof.
  unfold same_list. split.
  - intro H. assert (G : forall l, forallb (fun i => Reqb (a i) (b i)) l = false -> exists i, In i l /\ a i <> b i).
    { induction l as [|x l IH]; cbn; [discriminate|]. unfold Reqb at 1. destruct (Req_EM_T (a x) (b x)); cbn; intro Q; [destruct (IH Q) as [i [I D]]; exists i; auto|exists x; auto]. }
    destruct (G _ H) as [i [I D]]. exists i. split; [apply in_seq in I; lia|auto].
  - intros [i [I D]]. destruct (forallb (fun i => Reqb (a i) (b i)) (seq 0 N)) eqn:E; [|auto]. exfalso. rewrite forallb_forall in E.
    specialize (E i ltac:(apply in_seq; lia)). unfold Reqb in E. destruct (Req_EM_T (a i) (b i)); [contradiction|discriminate].
Qed.
Lemma mean_diff_spec N e a : mean_diff N e a = mean_distance N e a.
Proof. unfold mean_diff, mean_distance. rewrite loop_rsum. f_equal. ring. Qed.
Lemma mean_rel_diff_spec N e a : mean_rel_diff N e a = mean_relative_distance N e a.
Proof. unfold mean_rel_diff, mean_relative_distance. rewrite loop_rsum. f_equal. rewrite Rplus_0_l. apply rsum_ext. intros. unfold Reqb. destruct (Req_EM_T (a i) 0); auto. Qed.
Lemma lnK_spec N K : lnK_2_tot N K = rsum N (fun i => Rsqr (ln (K i))).
Proof. unfold lnK_2_tot. rewrite loop_rsum. rewrite Rplus_0_l. reflexivity. Qed.
Lemma scan_spec N existing a : forall m d, scan_existing N existing a m = Some d <->
  (forall e, In e existing -> 1 / 10 ^ 4 <= mean_distance N e a /\ 2 / 100 <= mean_relative_distance N e a) /\
  d <= m /\ (forall e, In e existing -> d <= mean_distance N e a) /\ (d = m \/ exists e, In e existing /\ d = mean_distance N e a).
Proof.
  induction existing as [|e l IH]; intros m d; cbn [scan_existing].
  - split; [intro H; injection H; intro; subst; splits; cbn; try tauto; lra|]. intros [_ [_ [_ [Q|[e [[] _]]]]]]. subst; auto.
  - rewrite mean_diff_spec, mean_rel_diff_spec.
    destruct (Rltb_spec (mean_distance N e a) (1 / 10000)) as [L1|L1].
    { split; [discriminate|]. intros [H _]. destruct (H e (or_introl eq_refl)). exfalso. lra. }
    destruct (Rltb_spec (mean_relative_distance N e a) (2 / 100)) as [L2|L2].
    { split; [discriminate|]. intros [H _]. destruct (H e (or_introl eq_refl)). exfalso. lra. }
    rewrite IH. split.
    + intros [A [B [C D]]]. splits.
      * intros x [<-|I]; [|auto]. lra.
      * destruct (Rltb_spec (mean_distance N e a) m); lra.
      * intros x [<-|I]; [|auto]. destruct (Rltb_spec (mean_distance N e a) m); lra.
      * destruct D as [D|[x [I D]]]; [|right; exists x; cbn; auto]. destruct (Rltb_spec (mean_distance N e a) m); [right; exists e; cbn; auto|auto].
    + intros [A [B [C D]]]. splits.
      * intros x I. apply A. cbn; auto.
      * destruct (Rltb_spec (mean_distance N e a) m); [apply C; cbn; auto|auto].
      * intros x I. apply C. cbn; auto.
      * destruct (Rltb_spec (mean_distance N e a) m) as [L|L].
        { destruct D as [D|[x [[<-|I] D]]]; [pose proof (C e (or_introl eq_refl)); lra|auto|right; exists x; auto]. }
        { destruct D as [D|[x [[<-|I] D]]]; [auto|left; lra|right; exists x; auto]. }
Qed.
Lemma checks_informative N zs existing t : (exists d, checks N zs existing t = Some d) <-> informative N zs existing t.
Proof.
  unfold checks. rewrite lnK_spec. split.
  - intros [d H]. destruct (same_list N zs (t_trial_zs t)) eqn:E; [discriminate|]. apply same_list_spec in E.
    destruct (Rltb_spec (Rabs (t_sum t - 1)) (1 / 10 ^ 9)); [discriminate|]. destruct (Rltb_spec (rsum N (fun i => Rsqr (ln (t_Ks t i)))) (1 / 10 ^ 7)); [discriminate|].
    destruct (Rltb_spec (10 ^ 20) (Rabs (t_sum t - 1))); [discriminate|]. cbn [orb] in H. constructor; auto; [lra|lra|].
    destruct existing as [|e l]; [cbn; tauto|]. cbn [length Nat.eqb] in H. apply scan_spec in H. apply H.
  - intros [A B C D]. apply same_list_spec in A. rewrite A.
    destruct (Rltb_spec (Rabs (t_sum t - 1)) (1 / 10 ^ 9)); [lra|]. destruct (Rltb_spec (rsum N (fun i => Rsqr (ln (t_Ks t i)))) (1 / 10 ^ 7)); [lra|].
    destruct (Rltb_spec (10 ^ 20) (Rabs (t_sum t - 1))); [lra|]. cbn [orb].
    destruct existing as [|e l]; [exists 0; auto|]. cbn [length Nat.eqb].
    assert (G : forall l m, (forall e, In e l -> 1 / 10 ^ 4 <= mean_distance N e (t_appearing_zs t) /\ 2 / 100 <= mean_relative_distance N e (t_appearing_zs t)) -> exists d, scan_existing N l (t_appearing_zs t) m = Some d).
    { clear. induction l as [|x l IH]; intros m H; [exists m; auto|]. cbn [scan_existing]. destruct (H x (or_introl eq_refl)). rewrite mean_diff_spec, mean_rel_diff_spec.
      destruct (Rltb_spec (mean_distance N x (t_appearing_zs t)) (1 / 10000)); [lra|]. destruct (Rltb_spec (mean_relative_distance N x (t_appearing_zs t)) (2 / 100)); [lra|].
      apply IH. intros; apply H; cbn; auto. }
    apply G, D.
Qed.
Lemma checks_distance N zs existing t d d' : checks N zs existing t = Some d -> nearest N existing (t_appearing_zs t) d' -> d' <= 10 ^ 100 -> d = d'.
Proof.
  unfold checks. intros H [[e [E1 E2]] E3] L. destruct (same_list N zs (t_trial_zs t)); [discriminate|]. destruct (_ || _ || _)%bool; [discriminate|].
  destruct existing as [|x l]; [destruct E1|]. cbn [length Nat.eqb] in H. apply scan_spec in H. destruct H as [_ [A [B [C|[y [C1 C2]]]]]].
  - pose proof (B e E1). lra.
  - pose proof (B e E1). pose proof (E3 y C1). lra.
Qed.
Lemma checks_positive N zs existing t d : existing <> [] -> checks N zs existing t = Some d -> 0 < d.
Proof.
  unfold checks. intros X H. destruct (same_list N zs (t_trial_zs t)); [discriminate|]. destruct (_ || _ || _)%bool; [discriminate|].
  destruct existing as [|x l]; [contradiction|]. cbn [length Nat.eqb] in H. apply scan_spec in H. destruct H as [A [_ [_ [C|[y [C1 C2]]]]]].
  - rewrite C. apply pow_lt. lra.
  - destruct (A y C1). lra.
Qed.

(* the loop body, given the checks *)
Definition outside (t : trial) : bool := (Rltb (t_V t) (- (1 / 10 ^ 6)) || Rltb (1 + 1 / 10 ^ 6) (t_V t))%bool.
Lemma outside_spec t : outside t = false <-> splits_feed t.
Proof.
  unfold outside, splits_feed. destruct (Rltb_spec (t_V t) (- (1 / 10 ^ 6))); destruct (Rltb_spec (1 + 1 / 10 ^ 6) (t_V t)); cbn [orb]; split; intro; try discriminate; try lra; reflexivity.
Qed.
Definition noted (N : nat) (o : stab_options) (i : nat) (t : trial) (st : stab_state) : stab_state :=
  {| z_always := if outside t then z_always st else false; z_stable := outside t; z_iffy := z_iffy st; z_lowest := z_lowest st; z_dG_min := z_dG_min st;
     z_far := z_far st; z_far_max := z_far_max st; z_all := if o_all_solutions o then z_all st ++ [report N i t] else z_all st; z_last := Some (report N i t);
     z_far_off := z_far_off st; z_name_error := z_name_error st |}.
Lemma stab_loop_cons N o zs existing i t rest st : stab_loop N o zs existing i (Some t :: rest) st =
  match checks N zs existing t with
  | None => stab_loop N o zs existing (S i) rest st
  | Some min_diff =>
      let st := noted N o i t st in let sol := report N i t in
      if outside t then stab_loop N o zs existing (S i) rest st
      else if o_highest_comp_diff o then
        if Nat.eqb (length existing) 0 then
          {| z_always := z_always st; z_stable := z_stable st; z_iffy := z_iffy st; z_lowest := z_lowest st; z_dG_min := z_dG_min st; z_far := z_far st;
             z_far_max := z_far_max st; z_all := z_all st; z_last := z_last st; z_far_off := z_far_off st; z_name_error := true |}
        else if Rltb (z_far_max st) min_diff then
          if (match o_min_comp_diff o with Some m => Rltb m min_diff | None => false end && negb (o_all_solutions o))%bool then
            {| z_always := z_always st; z_stable := z_stable st; z_iffy := z_iffy st; z_lowest := z_lowest st; z_dG_min := z_dG_min st; z_far := z_far st;
               z_far_max := z_far_max st; z_all := z_all st; z_last := z_last st; z_far_off := true; z_name_error := z_name_error st |}
          else stab_loop N o zs existing (S i) rest
            {| z_always := z_always st; z_stable := z_stable st; z_iffy := z_iffy st; z_lowest := z_lowest st; z_dG_min := z_dG_min st; z_far := Some sol;
               z_far_max := min_diff; z_all := z_all st; z_last := z_last st; z_far_off := z_far_off st; z_name_error := z_name_error st |}
        else stab_loop N o zs existing (S i) rest st
      else if o_lowest_dG o then
        if Rltb (z_dG_min st) (t_dG t) then stab_loop N o zs existing (S i) rest
            {| z_always := z_always st; z_stable := z_stable st; z_iffy := z_iffy st; z_lowest := Some sol; z_dG_min := t_dG t; z_far := z_far st;
               z_far_max := z_far_max st; z_all := z_all st; z_last := z_last st; z_far_off := z_far_off st; z_name_error := z_name_error st |}
        else stab_loop N o zs existing (S i) rest st
      else if (o_handle_iffy o && Rltb (Rabs (t_sum t - 1)) (1 / 10 ^ 5))%bool then stab_loop N o zs existing (S i) rest
            {| z_always := z_always st; z_stable := z_stable st; z_iffy := Some sol; z_lowest := z_lowest st; z_dG_min := z_dG_min st; z_far := z_far st;
               z_far_max := z_far_max st; z_all := z_all st; z_last := z_last st; z_far_off := z_far_off st; z_name_error := z_name_error st |}
      else if o_all_solutions o then stab_loop N o zs existing (S i) rest st
      else st
  end.
Proof.
  assert (R : report N i t = {| w_trial_zs := t_trial_zs t; w_appearing_zs := t_appearing_zs t; w_V := t_V t; w_i := i; w_sum_criteria := Rabs (t_sum t - 1);
    w_lnK2 := lnK_2_tot N (t_Ks t); w_dG := t_dG t |}) by (unfold report; rewrite lnK_spec; reflexivity).
  cbn [stab_loop]. unfold checks, noted, outside. rewrite R.
  destruct (same_list N zs (t_trial_zs t)); [reflexivity|]. destruct (_ || _ || _)%bool; [reflexivity|]. reflexivity.
Qed.

(* a candidate at position k of the remaining trials *)
Definition cand (N : nat) (zs : vec) (existing : list vec) (trials : list (option trial)) (k : nat) (t : trial) (d : R) : Prop :=
  nth_error trials k = Some (Some t) /\ checks N zs existing t = Some d /\ outside t = false.
Lemma cand_shows N zs existing trials k t : (exists d, cand N zs existing trials k t d) <-> shows_unstable N zs existing trials k t.
Proof.
  unfold cand, shows_unstable. rewrite <- outside_spec, <- checks_informative. split.
  - intros [d [A [B C]]]. splits; eauto.
  - intros [A [[d B] C]]. eauto.
Qed.
Lemma cand_S N zs existing x trials k t d : cand N zs existing (x :: trials) (S k) t d <-> cand N zs existing trials k t d.
Proof. unfold cand. cbn [nth_error]. tauto. Qed.
Lemma cand_tl N zs existing x trials k t d : cand N zs existing (x :: trials) (S k) t d -> cand N zs existing trials k t d.
Proof. apply cand_S. Qed.

(* passing over trials that show nothing *)
Definition quiet (o : stab_options) (st st' : stab_state) : Prop :=
  z_always st' = z_always st /\ (z_stable st = true -> z_stable st' = true) /\ z_iffy st' = z_iffy st /\ z_lowest st' = z_lowest st /\ z_dG_min st' = z_dG_min st /\
  z_far st' = z_far st /\ z_far_max st' = z_far_max st /\ (o_all_solutions o = false -> z_all st' = z_all st) /\ z_far_off st' = z_far_off st /\ z_name_error st' = z_name_error st.
Lemma quiet_refl o st : quiet o st st.
Proof. unfold quiet. splits; auto. Qed.
Lemma quiet_trans o a b c : quiet o a b -> quiet o b c -> quiet o a c.
Proof. unfold quiet. intros [A1 [A2 [A3 [A4 [A5 [A6 [A7 [A8 [A9 A10]]]]]]]]] [B1 [B2 [B3 [B4 [B5 [B6 [B7 [B8 [B9 B10]]]]]]]]]. splits; try congruence; auto. intro. rewrite B8; auto. Qed.
Lemma quiet_noted N o i t st : outside t = true -> quiet o st (noted N o i t st).
Proof. intro H. unfold quiet, noted. cbn. rewrite H. splits; auto. intro E; rewrite E; auto. Qed.
Lemma quiet_prefix N o zs existing pre rest : forall i st, (forall k t d, ~ cand N zs existing pre k t d) ->
  exists st', quiet o st st' /\ stab_loop N o zs existing i (pre ++ rest) st = stab_loop N o zs existing (i + length pre) rest st'.
Proof.
  induction pre as [|x pre IH]; intros i st H.
  - exists st. cbn. rewrite Nat.add_0_r. split; [apply quiet_refl|auto].
  - assert (H' : forall k t d, ~ cand N zs existing pre k t d) by (intros k t d Q; apply (H (S k) t d); apply cand_S; auto).
    cbn [app length]. rewrite <- Nat.add_succ_comm. destruct x as [t|]; [|apply IH; auto].
    rewrite stab_loop_cons. destruct (checks N zs existing t) as [d|] eqn:C; [|apply IH; auto]. cbv zeta.
    destruct (outside t) eqn:O.
    + destruct (IH (S i) (noted N o i t st) H') as [st' [Q E]]. exists st'. split; [|auto]. apply quiet_trans with (2 := Q). apply quiet_noted; auto.
    + exfalso. apply (H 0%nat t d). unfold cand. cbn. auto.
Qed.
Lemma first_or_none N zs existing trials : (forall k t d, ~ cand N zs existing trials k t d) \/
  exists k t d, cand N zs existing trials k t d /\ forall k' t' d', (k' < k)%nat -> ~ cand N zs existing trials k' t' d'.
Proof.
  induction trials as [|x l IH].
  - left. intros k t d [H _]. destruct k; discriminate.
  - assert (D : (exists t d, cand N zs existing (x :: l) 0 t d) \/ forall t d, ~ cand N zs existing (x :: l) 0 t d).
    { destruct x as [t|]; [|right; intros t d [H _]; discriminate]. destruct (checks N zs existing t) as [d|] eqn:C; [|right; intros t' d [H [C' _]]; cbn in H; congruence].
      destruct (outside t) eqn:O; [right; intros t' d' [H [_ O']]; cbn in H; congruence|]. left. exists t, d. unfold cand. cbn. auto. }
    destruct D as [[t [d D]]|D].
    + right. exists 0%nat, t, d. split; [auto|]. intros; lia.
    + destruct IH as [IH|[k [t [d [C F]]]]].
      * left. intros [|k] t d Q; [exact (D _ _ Q)|]. apply cand_tl in Q. exact (IH _ _ _ Q).
      * right. exists (S k), t, d. split; [apply cand_S; auto|]. intros [|k'] t' d' L Q; [exact (D _ _ Q)|]. apply cand_tl in Q. apply (F k' t' d'); [lia|auto].
Qed.
Lemma split_at N zs existing trials k t d : cand N zs existing trials k t d -> (forall k' t' d', (k' < k)%nat -> ~ cand N zs existing trials k' t' d') ->
  exists pre rest, trials = pre ++ Some t :: rest /\ length pre = k /\ forall k' t' d', ~ cand N zs existing pre k' t' d'.
Proof.
  intros [C1 C2] F. destruct (nth_error_split _ _ C1) as [pre [rest [E L]]]. exists pre, rest. splits; auto.
  intros k' t' d' [Q1 Q2]. assert (K : (k' < k)%nat) by (rewrite <- L; apply nth_error_Some; congruence).
  apply (F k' t' d' K). split; [|auto]. rewrite E, nth_error_app1 by lia. auto.
Qed.
Lemma loop_not_always N o zs existing trials : forall i st, z_always st = false -> z_always (stab_loop N o zs existing i trials st) = false.
Proof.
  induction trials as [|[t|] l IH]; intros i st H; [auto| |apply IH; auto].
  rewrite stab_loop_cons. destruct (checks N zs existing t); [|apply IH; auto]. cbv zeta.
  assert (A : z_always (noted N o i t st) = false) by (unfold noted; cbn; destruct (outside t); auto).
  destruct (outside t); [apply IH; auto|]. destruct (o_highest_comp_diff o).
  { destruct (Nat.eqb (length existing) 0); [auto|]. destruct (Rltb _ r); [|apply IH; auto]. destruct (_ && _)%bool; [auto|apply IH; auto]. }
  destruct (o_lowest_dG o). { destruct (Rltb _ (t_dG t)); apply IH; auto. }
  destruct (_ && _)%bool; [apply IH; auto|]. destruct (o_all_solutions o); [apply IH; auto|auto].
Qed.
Lemma first_not_always N o zs existing i t d rest st : checks N zs existing t = Some d -> outside t = false -> z_always (stab_loop N o zs existing i (Some t :: rest) st) = false.
Proof.
  intros C O. rewrite stab_loop_cons, C, O. cbv zeta. assert (A : z_always (noted N o i t st) = false) by (unfold noted; cbn; rewrite O; auto).
  destruct (o_highest_comp_diff o).
  { destruct (Nat.eqb (length existing) 0); [auto|]. destruct (Rltb _ d); [|apply loop_not_always; auto]. destruct (_ && _)%bool; [auto|apply loop_not_always; auto]. }
  destruct (o_lowest_dG o). { destruct (Rltb _ (t_dG t)); apply loop_not_always; auto. }
  destruct (_ && _)%bool; [apply loop_not_always; auto|]. destruct (o_all_solutions o); [apply loop_not_always; auto|auto].
Qed.

Lemma test_unfold N o z existing trials : stability_test_Michelsen N o z existing trials =
  let st := stab_loop N o z (known_phases z existing) 0 trials stab_start in
  if z_name_error st then Name_error else if o_all_solutions o then All (z_all st) else if z_always st then Verdict (z_stable st) None
  else let far := (o_highest_comp_diff o && negb (z_far_off st))%bool in
    match (if (negb (o_lowest_dG o) && negb far && negb (o_handle_iffy o))%bool then z_last st else if far then z_far st else if o_lowest_dG o then z_lowest st else z_iffy st) with
    | Some s => Verdict false (Some (number o s)) | None => Type_error end.
Proof. reflexivity. Qed.

(* ---- the verdict: stable exactly when no trial shows the feed to be unstable ---- *)
Theorem C53_verdict : forall N o z existing trials, o_all_solutions o = false ->
  (stability_test_Michelsen N o z existing trials = Verdict true None <-> forall k t, ~ shows_unstable N z (known_phases z existing) trials k t).
Proof.
  intros N o z existing trials A. rewrite test_unfold. cbv zeta. set (known := known_phases z existing). rewrite A.
  destruct (first_or_none N z known trials) as [F|[k [t [d [C F]]]]].
  - destruct (quiet_prefix N o z known trials [] 0 stab_start F) as [st' [Q E]]. rewrite app_nil_r in E. rewrite E. cbn [stab_loop].
    destruct Q as [Q1 [Q2 [_ [_ [_ [_ [_ [_ [_ Q3]]]]]]]]]. rewrite Q1, Q3, (Q2 eq_refl). cbn. split; [|auto].
    intros _ k t S. apply cand_shows in S. destruct S as [d S]. exact (F k t d S).
  - split.
    + intro H. exfalso. destruct (split_at _ _ _ _ _ _ _ C F) as [pre [rest [-> [L P]]]]. destruct (quiet_prefix N o z known pre (Some t :: rest) 0 stab_start P) as [st' [_ E]].
      rewrite E in H. destruct C as [_ [C O]]. pose proof (first_not_always N o z known (0 + length pre) t d rest st' C O) as NA. rewrite NA in H.
      destruct (z_name_error _); [discriminate|]. match type of H with match ?c with _ => _ end = _ => destruct c; discriminate H end.
    + intro H. exfalso. apply (H k t). apply cand_shows. exists d; auto.
Qed.

(* ---- by default the first trial that shows it is reported ---- *)
Definition skipped (o : stab_options) : nat := match o_skip o with Some k => k | None => 0%nat end.
Lemma number_report N o k t : number o (report N k t) = report N (k + skipped o) t.
Proof. unfold number, skipped, report. destruct (o_skip o); [auto|]. rewrite Nat.add_0_r. auto. Qed.
Theorem C53_first_reported : forall N o z existing trials k t,
  o_all_solutions o = false -> o_highest_comp_diff o = false -> o_lowest_dG o = false -> o_handle_iffy o = false ->
  shows_unstable N z (known_phases z existing) trials k t -> (forall k' t', (k' < k)%nat -> ~ shows_unstable N z (known_phases z existing) trials k' t') ->
  stability_test_Michelsen N o z existing trials = Verdict false (Some (report N (k + skipped o) t)).
Proof.
  intros N o z existing trials k t A B D E S F. rewrite test_unfold. cbv zeta. set (known := known_phases z existing) in *. rewrite A.
  apply cand_shows in S. destruct S as [d S].
  destruct (split_at N z known trials k t d S) as [pre [rest [-> [L P]]]]. { intros k' t' d' K Q. apply (F k' t' K). apply cand_shows. exists d'; auto. }
  destruct (quiet_prefix N o z known pre (Some t :: rest) 0 stab_start P) as [st' [Q EE]]. rewrite EE. destruct S as [_ [C O]]. rewrite stab_loop_cons, C, O, B, D, E, A. cbn.
  destruct Q as [_ [_ [_ [_ [_ [_ [_ [_ [_ Q]]]]]]]]]. rewrite Q. cbn. rewrite O. rewrite number_report, L. reflexivity.
Qed.

(* ---- highest_comp_diff: the trial farthest from the known phases, the first of them on a tie ---- *)
Lemma far_loop N o z known : o_highest_comp_diff o = true -> o_all_solutions o = false -> known <> [] -> forall trials i st,
  z_far_off st = false -> z_name_error st = false -> 0 <= z_far_max st ->
  (forall m k t d, o_min_comp_diff o = Some m -> cand N z known trials k t d -> d <= m) ->
  let r := stab_loop N o z known i trials st in
  z_far_off r = false /\ z_name_error r = false /\
  ((forall k t d, cand N z known trials k t d -> d <= z_far_max st) -> z_far r = z_far st) /\
  (forall k t d, cand N z known trials k t d -> z_far_max st < d -> (forall k' t' d', cand N z known trials k' t' d' -> d' <= d /\ ((k' < k)%nat -> d' < d)) ->
     z_far r = Some (report N (i + k) t)).
Proof.
  intros H A X. induction trials as [|x l IH]; intros i st Z1 Z2 Z3 M.
  - cbn. splits; auto. intros k t d [Q _]. destruct k; discriminate.
  - assert (M' : forall m k t d, o_min_comp_diff o = Some m -> cand N z known l k t d -> d <= m) by (intros m k t d Q1 Q2; apply (M m (S k) t d Q1); apply cand_S; auto).
    assert (SHIFT : forall st0, z_far_max st0 = z_far_max st -> z_far st0 = z_far st -> (forall t d, ~ cand N z known (x :: l) 0 t d) \/ (exists t d, cand N z known (x :: l) 0 t d /\ d <= z_far_max st) -> z_far_off st0 = false -> z_name_error st0 = false ->
      let r := stab_loop N o z known (S i) l st0 in z_far_off r = false /\ z_name_error r = false /\
      ((forall k t d, cand N z known (x :: l) k t d -> d <= z_far_max st) -> z_far r = z_far st) /\
      (forall k t d, cand N z known (x :: l) k t d -> z_far_max st < d -> (forall k' t' d', cand N z known (x :: l) k' t' d' -> d' <= d /\ ((k' < k)%nat -> d' < d)) -> z_far r = Some (report N (i + k) t))).
    { intros st0 E1 E2 HH E3 E4. destruct (IH (S i) st0 E3 E4 ltac:(rewrite E1; auto) M') as [I1 [I2 [I3 I4]]]. cbv zeta. splits; auto.
      - intro Q. rewrite I3, E2; [auto|]. intros k t d C. rewrite E1. apply (Q (S k) t d). apply cand_S; auto.
      - intros [|k] t d C G T.
        + exfalso. destruct HH as [HH|[t' [d' [HH L]]]]; [exact (HH _ _ C)|]. destruct C as [C1 [C2 _]], HH as [HH1 [HH2 _]]. cbn in C1, HH1. assert (t = t') by congruence. subst. assert (d = d') by congruence. lra.
        + rewrite <- Nat.add_succ_comm. apply cand_tl in C. apply (I4 k t d C); [rewrite E1; auto|]. intros k' t' d' C'. destruct (T (S k') t' d') as [T1 T2]; [apply cand_S; auto|]. split; [auto|]. intro; apply T2; lia. }
    destruct x as [t|]; [|apply SHIFT; auto; left; intros t d [Q _]; discriminate].
    rewrite stab_loop_cons. destruct (checks N z known t) as [d|] eqn:C; [|apply SHIFT; auto; left; intros t' d' [Q [C' _]]; cbn in Q; congruence]. cbv zeta.
    destruct (outside t) eqn:O; [apply SHIFT; auto; left; intros t' d' [Q [_ O']]; cbn in Q; congruence|].
    rewrite H. assert (LX : Nat.eqb (@length vec known) 0 = false) by (destruct known; [contradiction|auto]). rewrite LX.
    assert (CA : cand N z known (Some t :: l) 0 t d) by (unfold cand; cbn; auto).
    change (z_far_max (noted N o i t st)) with (z_far_max st).
    destruct (Rltb_spec (z_far_max st) d) as [G|G].
    2:{ apply SHIFT; auto. right. exists t, d. split; [auto|lra]. }
    assert (MM : match o_min_comp_diff o with Some m => Rltb m d | None => false end = false).
    { destruct (o_min_comp_diff o) as [m|] eqn:EM; [|auto]. destruct (Rltb_spec m d) as [G'|]; [|auto]. pose proof (M m 0%nat t d eq_refl CA). lra. }
    rewrite MM. cbn [andb].
    match goal with |- context [stab_loop N o z known (S i) l ?s] => set (st1 := s) end.
    destruct (IH (S i) st1 ltac:(exact Z1) ltac:(exact Z2) ltac:(cbn; lra) M') as [I1 [I2 [I3 I4]]]. splits; auto.
    + intro Q. exfalso. pose proof (Q 0%nat t d CA). lra.
    + intros [|k] t' d' C' G' T.
      * destruct C' as [C1 [C2 _]]. cbn in C1. assert (t = t') by congruence. subst t'. assert (d = d') by congruence. subst d'. rewrite Nat.add_0_r.
        rewrite I3; [reflexivity|]. intros k t' d' C''. apply (T (S k) t' d'). apply cand_S; auto.
      * rewrite <- Nat.add_succ_comm. destruct (T 0%nat t d CA) as [_ T0]. apply cand_tl in C'. apply (I4 k t' d' C'); [cbn; apply T0; lia|].
        intros k' t'' d'' C''. destruct (T (S k') t'' d'') as [T1 T2]; [apply cand_S; auto|]. split; [auto|]. intro; apply T2; lia.
Qed.
(* distances that matter are below 10^100, which is where the search for the nearest phase starts *)
Definition distances_bounded (N : nat) (known : list comp) (trials : list (option trial)) : Prop :=
  forall t d, In (Some t) trials -> nearest N known (t_appearing_zs t) d -> d <= 10 ^ 100.
Lemma nearest_exists N known a : known <> [] -> exists d, nearest N known a d.
Proof.
  intro X. destruct known as [|e l]; [contradiction|]. clear X. revert e. induction l as [|x l IH]; intro e.
  - exists (mean_distance N e a). split; [exists e; cbn; auto|]. intros y [<-|[]]. lra.
  - destruct (IH x) as [d [[y [I1 I2]] D]]. destruct (Rle_dec d (mean_distance N e a)) as [L|L].
    + exists d. split; [exists y; split; [right; auto|auto]|]. intros w [<-|I]; auto.
    + exists (mean_distance N e a). split; [exists e; cbn; auto|]. intros w [<-|I]; [lra|]. specialize (D w I). lra.
Qed.
Lemma cand_nearest N z known trials k t d : known <> [] -> distances_bounded N known trials -> cand N z known trials k t d -> nearest N known (t_appearing_zs t) d.
Proof.
  intros X B [C1 [C2 C3]]. destruct (nearest_exists N known (t_appearing_zs t) X) as [d' D]. rewrite (checks_distance N z known t d d'); auto. apply (B t d'); auto. apply nth_error_In in C1; auto.
Qed.
Theorem C53_farthest_reported : forall N o z existing trials k t d,
  o_all_solutions o = false -> o_highest_comp_diff o = true -> known_phases z existing <> [] -> distances_bounded N (known_phases z existing) trials ->
  shows_unstable N z (known_phases z existing) trials k t -> nearest N (known_phases z existing) (t_appearing_zs t) d ->
  (* none is farther than the given minimum *)
  (forall m, o_min_comp_diff o = Some m -> d <= m) ->
  (forall k' t' d', shows_unstable N z (known_phases z existing) trials k' t' -> nearest N (known_phases z existing) (t_appearing_zs t') d' -> d' <= d /\ ((k' < k)%nat -> d' < d)) ->
  stability_test_Michelsen N o z existing trials = Verdict false (Some (report N (k + skipped o) t)).
Proof.
  intros N o z existing trials k t d A H X B S D M T. rewrite test_unfold. cbv zeta. set (known := known_phases z existing) in *. rewrite A.
  apply cand_shows in S. destruct S as [d0 S]. assert (d0 = d). { destruct S as [S1 [S2 _]]. apply (checks_distance N z known t d0 d); auto. apply (B t d); auto. apply nth_error_In in S1; auto. } subst d0.
  assert (T' : forall k' t' d', cand N z known trials k' t' d' -> d' <= d /\ ((k' < k)%nat -> d' < d)).
  { intros k' t' d' C'. apply (T k' t' d'); [apply cand_shows; exists d'; auto|]. apply (cand_nearest N z known trials k' t' d'); auto. }
  destruct (far_loop N o z known H A X trials 0 stab_start eq_refl eq_refl ltac:(cbn; lra)) as [R1 [R2 [_ R4]]].
  { intros m k' t' d' EM C'. destruct (T' k' t' d' C'). specialize (M m EM). lra. }
  assert (R5 : z_far (stab_loop N o z known 0 trials stab_start) = Some (report N k t)).
  { apply (R4 k t d S); [cbn; destruct S as [_ [S2 _]]; apply (checks_positive N z known t d X S2)|auto]. }
  assert (NA : z_always (stab_loop N o z known 0 trials stab_start) = false).
  { destruct (first_or_none N z known trials) as [F|[k1 [t1 [d1 [C F]]]]]; [exfalso; exact (F _ _ _ S)|].
    destruct (split_at _ _ _ _ _ _ _ C F) as [pre [rest [-> [L P]]]]. destruct (quiet_prefix N o z known pre (Some t1 :: rest) 0 stab_start P) as [st' [_ E]]. rewrite E.
    destruct C as [_ [C O]]. apply (first_not_always _ _ _ _ _ _ _ _ _ C O). }
  rewrite R1, R2, NA, H, R5. cbn. rewrite andb_false_r. cbn. rewrite number_report. reflexivity.
Qed.
(* with a minimum, the first one farther than that *)
Theorem C53_far_enough_reported : forall N o z existing trials k t d m, 0 <= m ->
  o_all_solutions o = false -> o_highest_comp_diff o = true -> o_min_comp_diff o = Some m -> o_lowest_dG o = false -> o_handle_iffy o = false ->
  known_phases z existing <> [] -> distances_bounded N (known_phases z existing) trials ->
  shows_unstable N z (known_phases z existing) trials k t -> nearest N (known_phases z existing) (t_appearing_zs t) d -> m < d ->
  (forall k' t' d', shows_unstable N z (known_phases z existing) trials k' t' -> nearest N (known_phases z existing) (t_appearing_zs t') d' -> (k' < k)%nat -> d' <= m) ->
  stability_test_Michelsen N o z existing trials = Verdict false (Some (report N (k + skipped o) t)).
Proof.
  intros N o z existing trials k t d m M0 A H EM L0 I0 X B S D G T. rewrite test_unfold. cbv zeta. set (known := known_phases z existing) in *. rewrite A.
  apply cand_shows in S. destruct S as [d0 S]. assert (d0 = d). { destruct S as [S1 [S2 _]]. apply (checks_distance N z known t d0 d); auto. apply (B t d); auto. apply nth_error_In in S1; auto. } subst d0.
  assert (T' : forall k' t' d', cand N z known trials k' t' d' -> (k' < k)%nat -> d' <= m).
  { intros k' t' d' C' K. apply (T k' t' d'); auto; [apply cand_shows; exists d'; auto|]. apply (cand_nearest N z known trials k' t' d'); auto. }
  assert (LX : Nat.eqb (@length vec known) 0 = false) by (destruct known; [contradiction|auto]).
  assert (P : forall trials i k st, cand N z known trials k t d -> (forall k' t' d', cand N z known trials k' t' d' -> (k' < k)%nat -> d' <= m) -> z_far_max st <= m -> z_name_error st = false ->
    let r := stab_loop N o z known i trials st in z_far_off r = true /\ z_name_error r = false /\ z_always r = false /\ z_last r = Some (report N (i + k) t)).
  { clear T T' S B D. induction trials0 as [|x l IH]; intros i k0 st C T F NE; [destruct C as [C _]; destruct k0; discriminate|].
    destruct k0 as [|k0].
    - destruct C as [C1 [C2 C3]]. cbn in C1. injection C1; intro; subst x. rewrite stab_loop_cons, C2, C3, H, LX, EM. cbv zeta. change (z_far_max (noted N o i t st)) with (z_far_max st).
      destruct (Rltb_spec (z_far_max st) d); [|lra]. destruct (Rltb_spec m d); [|lra]. rewrite A. cbn. rewrite C3, Nat.add_0_r. splits; auto.
    - apply cand_tl in C. assert (T1 : forall k' t' d', cand N z known l k' t' d' -> (k' < k0)%nat -> d' <= m) by (intros k' t' d' Q1 Q2; apply (T (S k') t' d'); [apply cand_S; auto|lia]).
      rewrite <- Nat.add_succ_comm. destruct x as [t1|]; [|apply IH; auto]. rewrite stab_loop_cons. destruct (checks N z known t1) as [d1|] eqn:C1; [|apply IH; auto]. cbv zeta.
      destruct (outside t1) eqn:O1; [apply IH; auto|]. rewrite H, LX, EM. change (z_far_max (noted N o i t1 st)) with (z_far_max st).
      assert (d1 <= m) by (apply (T 0%nat t1 d1); [unfold cand; cbn; auto|lia]).
      destruct (Rltb_spec (z_far_max st) d1); [|apply IH; auto]. destruct (Rltb_spec m d1); [lra|]. cbn [andb]. apply IH; auto. }
  destruct (P trials 0%nat k stab_start S T' ltac:(cbn; lra) eq_refl) as [R1 [R2 [R3 R4]]]. rewrite R1, R2, R3, R4, H, L0, I0. cbn. rewrite number_report. reflexivity.
Qed.

(* ---- all_solutions: every trial that says something, in order, whether it splits the feed or not ---- *)
Lemma all_loop N o z known : o_all_solutions o = true -> (o_highest_comp_diff o = true -> known <> []) -> forall trials i st, z_name_error st = false ->
  let r := stab_loop N o z known i trials st in z_name_error r = false /\ exists l, z_all r = z_all st ++ l /\
    (forall s, In s l <-> exists k t, nth_error trials k = Some (Some t) /\ informative N z known t /\ s = report N (i + k) t) /\
    (forall a b, (a < b < length l)%nat -> (w_i (nth a l (report N 0 {| t_sum := 0; t_Ks := z; t_zs_test := z; t_V := 0; t_trial_zs := z; t_appearing_zs := z; t_dG := 0 |})) <
       w_i (nth b l (report N 0 {| t_sum := 0; t_Ks := z; t_zs_test := z; t_V := 0; t_trial_zs := z; t_appearing_zs := z; t_dG := 0 |})))%nat).
Proof.
  intros A X. set (none := report N 0 _). induction trials as [|x l IH]; intros i st NE.
  - cbn. split; [auto|]. exists []. rewrite app_nil_r. splits; auto; [|intros a b K; cbn in K; lia]. intro s. split; [intros []|]. intros [k [t [H _]]]. destruct k; discriminate.
  - assert (SKIP : forall st0, z_name_error st0 = false -> z_all st0 = z_all st -> (forall t, x = Some t -> ~ informative N z known t) ->
      let r := stab_loop N o z known (S i) l st0 in z_name_error r = false /\ exists l', z_all r = z_all st ++ l' /\
      (forall s, In s l' <-> exists k t, nth_error (x :: l) k = Some (Some t) /\ informative N z known t /\ s = report N (i + k) t) /\
      (forall a b, (a < b < length l')%nat -> (w_i (nth a l' none) < w_i (nth b l' none))%nat)).
    { intros st0 E1 E2 NI. destruct (IH (S i) st0 E1) as [I1 [l' [I2 [I3 I4]]]]. split; [auto|]. exists l'. rewrite I2, E2. splits; auto.
      intro s. rewrite I3. split.
      - intros [k [t [H1 [H2 H3]]]]. exists (S k), t. splits; auto. rewrite H3, Nat.add_succ_comm. auto.
      - intros [[|k] [t [H1 [H2 H3]]]]; [exfalso; apply (NI t); auto; cbn in H1; congruence|]. exists k, t. splits; auto. rewrite H3, Nat.add_succ_comm. auto. }
    destruct x as [t|]; [|apply SKIP; auto; discriminate].
    rewrite stab_loop_cons. destruct (checks N z known t) as [d|] eqn:C.
    2:{ apply SKIP; auto. intros t' E I. injection E; intro; subst t'. apply checks_informative in I. destruct I as [d I]. congruence. }
    cbv zeta. assert (INF : informative N z known t) by (apply checks_informative; eauto).
    assert (KEEP : forall st0, z_name_error st0 = false -> z_all st0 = z_all st ++ [report N i t] ->
      let r := stab_loop N o z known (S i) l st0 in z_name_error r = false /\ exists l', z_all r = z_all st ++ l' /\
      (forall s, In s l' <-> exists k t', nth_error (Some t :: l) k = Some (Some t') /\ informative N z known t' /\ s = report N (i + k) t') /\
      (forall a b, (a < b < length l')%nat -> (w_i (nth a l' none) < w_i (nth b l' none))%nat)).
    { intros st0 E1 E2. destruct (IH (S i) st0 E1) as [I1 [l' [I2 [I3 I4]]]]. split; [auto|]. exists (report N i t :: l'). rewrite I2, E2, <- app_assoc. splits; auto.
      - intro s. cbn [In]. rewrite I3. split.
        + intros [<-|[k [t' [H1 [H2 H3]]]]]; [exists 0%nat, t; rewrite Nat.add_0_r; auto|]. exists (S k), t'. splits; auto. rewrite H3, Nat.add_succ_comm. auto.
        + intros [[|k] [t' [H1 [H2 H3]]]]; [left; cbn in H1; injection H1; intro; subst t'; rewrite H3, Nat.add_0_r; auto|]. right. exists k, t'. splits; auto. rewrite H3, Nat.add_succ_comm. auto.
      - intros a b K. destruct b as [|b]; [lia|]. cbn [length] in K. destruct a as [|a].
        + cbn [nth]. change (w_i (report N i t)) with i. assert (Q : In (nth b l' none) l') by (apply nth_In; lia). apply I3 in Q. destruct Q as [k [t' [_ [_ Q]]]]. rewrite Q. cbn. lia.
        + cbn [nth]. apply I4. lia. }
    assert (NA : z_all (noted N o i t st) = z_all st ++ [report N i t]) by (unfold noted; cbn; rewrite A; auto).
    assert (NN : z_name_error (noted N o i t st) = false) by exact NE.
    destruct (outside t); [apply KEEP; auto|]. destruct (o_highest_comp_diff o).
    { assert (LX : Nat.eqb (@length vec known) 0 = false) by (destruct known; [exfalso; apply X; auto|auto]). rewrite LX. destruct (Rltb _ d); [|apply KEEP; auto]. rewrite A, andb_false_r. apply KEEP; auto. }
    destruct (o_lowest_dG o). { destruct (Rltb _ (t_dG t)); apply KEEP; auto. }
    destruct (_ && _)%bool; [apply KEEP; auto|]. rewrite A. apply KEEP; auto.
Qed.
Definition in_order (l : list stab_solution) : Prop := forall a b s s', (a < b)%nat -> nth_error l a = Some s -> nth_error l b = Some s' -> (w_i s < w_i s')%nat.
Theorem C53_all_solutions : forall N o z existing trials, o_all_solutions o = true -> (o_highest_comp_diff o = true -> known_phases z existing <> []) ->
  exists l, stability_test_Michelsen N o z existing trials = All l /\ in_order l /\
    forall s, In s l <-> exists k t, nth_error trials k = Some (Some t) /\ informative N z (known_phases z existing) t /\ s = report N k t.
Proof.
  intros N o z existing trials A X. rewrite test_unfold. cbv zeta. destruct (all_loop N o z (known_phases z existing) A X trials 0 stab_start eq_refl) as [R1 [l [R2 [R3 R4]]]].
  rewrite R1, A, R2. exists l. splits; auto.
  intros a b s s' K E1 E2. assert (L : (b < length l)%nat) by (apply nth_error_Some; congruence). specialize (R4 a b ltac:(lia)).
  rewrite (nth_error_nth _ _ _ E1), (nth_error_nth _ _ _ E2) in R4. exact R4.
Qed.

(* ---- what is reported as unstable is unstable, to the tolerance of the trials ---- *)
Theorem C53_unstable_sound : forall N inner P z f_trial lnphi xtol o existing trials s, solves N inner -> 0 < P -> xtol <= / 4 ->
  o_all_solutions o = false -> o_highest_comp_diff o = false -> o_lowest_dG o = false -> o_handle_iffy o = false ->
  (forall i, (i < N)%nat -> 0 < z i /\ 0 < f_trial i) ->
  (* the trials are converged iterations from compositions *)
  (forall t, In (Some t) trials -> converged_at N inner P z f_trial lnphi xtol t /\ 0 < t_sum t /\ forall i, (i < N)%nat -> 0 < t_zs_test t i /\ 0 < t_trial_zs t i) ->
  stability_test_Michelsen N o z existing trials = Verdict false (Some s) -> 0 < w_V s ->
  exists t, In (Some t) trials /\ tangent_plane_distance N P lnphi f_trial (t_zs_test t) <= 4 * sqrt xtol /\ 1 <= t_sum t * (1 + sqrt xtol) /\
    w_trial_zs s = t_trial_zs t /\ w_appearing_zs s = t_appearing_zs t /\ w_V s = t_V t.
Proof.
  intros N inner P z ft lnphi xtol o existing trials s Sol HP X A B D E Pos Tr H V.
  destruct (first_or_none N z (known_phases z existing) trials) as [F|[k [t [d [C F]]]]].
  - assert (Q : stability_test_Michelsen N o z existing trials = Verdict true None) by (apply C53_verdict; [auto|]; intros k t S; apply cand_shows in S; destruct S as [d S]; exact (F k t d S)). congruence.
  - rewrite (C53_first_reported N o z existing trials k t A B D E) in H.
    + injection H; intro; subst s. cbn in V. exists t. assert (I : In (Some t) trials) by (destruct C as [C _]; apply nth_error_In in C; auto).
      destruct (Tr t I) as [T1 [T2 T3]].
      destruct (C53_split_is_real N inner P z ft lnphi xtol t Sol HP X) as [R1 R2]; auto.
      { intros i Hi. destruct (Pos i Hi), (T3 i Hi). auto. }
      splits; auto.
    + apply cand_shows. exists d; auto.
    + intros k' t' K S. apply cand_shows in S. destruct S as [d' S]. exact (F k' t' d' K S).
Qed.

(* ---- findings ---- *)
(* lowest_dG picks the trial with the highest dG *)
Lemma dG_loop N o z known : o_highest_comp_diff o = false -> o_lowest_dG o = true -> o_all_solutions o = false -> forall trials i st,
  z_name_error st = false ->
  let r := stab_loop N o z known i trials st in z_name_error r = false /\
  ((forall k t d, cand N z known trials k t d -> t_dG t <= z_dG_min st) -> z_lowest r = z_lowest st) /\
  (forall k t d, cand N z known trials k t d -> z_dG_min st < t_dG t -> (forall k' t' d', cand N z known trials k' t' d' -> t_dG t' <= t_dG t /\ ((k' < k)%nat -> t_dG t' < t_dG t)) ->
     z_lowest r = Some (report N (i + k) t)).
Proof.
  intros H Lo A. induction trials as [|x l IH]; intros i st Z.
  - cbn. splits; auto. intros k t d [Q _]. destruct k; discriminate.
  - assert (SHIFT : forall st0, z_dG_min st0 = z_dG_min st -> z_lowest st0 = z_lowest st -> (forall t d, cand N z known (x :: l) 0 t d -> t_dG t <= z_dG_min st) -> z_name_error st0 = false ->
      let r := stab_loop N o z known (S i) l st0 in z_name_error r = false /\
      ((forall k t d, cand N z known (x :: l) k t d -> t_dG t <= z_dG_min st) -> z_lowest r = z_lowest st) /\
      (forall k t d, cand N z known (x :: l) k t d -> z_dG_min st < t_dG t -> (forall k' t' d', cand N z known (x :: l) k' t' d' -> t_dG t' <= t_dG t /\ ((k' < k)%nat -> t_dG t' < t_dG t)) -> z_lowest r = Some (report N (i + k) t))).
    { intros st0 E1 E2 HH E4. destruct (IH (S i) st0 E4) as [I2 [I3 I4]]. cbv zeta. splits; auto.
      - intro Q. rewrite I3, E2; [auto|]. intros k t d C. rewrite E1. apply (Q (S k) t d). apply cand_S; auto.
      - intros [|k] t d C G T.
        + exfalso. specialize (HH _ _ C). lra.
        + rewrite <- Nat.add_succ_comm. apply cand_tl in C. apply (I4 k t d C); [rewrite E1; auto|]. intros k' t' d' C'. destruct (T (S k') t' d') as [T1 T2]; [apply cand_S; auto|]. split; [auto|]. intro; apply T2; lia. }
    destruct x as [t|]; [|apply SHIFT; auto; intros t d [Q _]; discriminate].
    rewrite stab_loop_cons. destruct (checks N z known t) as [d|] eqn:C; [|apply SHIFT; auto; intros t' d' [Q [C' _]]; cbn in Q; congruence]. cbv zeta.
    destruct (outside t) eqn:O; [apply SHIFT; auto; intros t' d' [Q [_ O']]; cbn in Q; congruence|].
    rewrite H, Lo. assert (CA : cand N z known (Some t :: l) 0 t d) by (unfold cand; cbn; auto).
    change (z_dG_min (noted N o i t st)) with (z_dG_min st).
    destruct (Rltb_spec (z_dG_min st) (t_dG t)) as [G|G].
    2:{ apply SHIFT; auto. intros t' d' [Q _]. cbn in Q. assert (t = t') by congruence. subst. lra. }
    match goal with |- context [stab_loop N o z known (S i) l ?s] => set (st1 := s) end.
    destruct (IH (S i) st1 ltac:(exact Z)) as [I2 [I3 I4]]. splits; auto.
    + intro Q. exfalso. pose proof (Q 0%nat t d CA). lra.
    + intros [|k] t' d' C' G' T.
      * destruct C' as [C1 [C2 _]]. cbn in C1. assert (t = t') by congruence. subst t'. rewrite Nat.add_0_r.
        rewrite I3; [reflexivity|]. intros k t' d'' C''. apply (T (S k) t' d''). apply cand_S; auto.
      * rewrite <- Nat.add_succ_comm. destruct (T 0%nat t d CA) as [_ T0]. apply cand_tl in C'. apply (I4 k t' d' C'); [cbn; apply T0; lia|].
        intros k' t'' d'' C''. destruct (T (S k') t'' d'') as [T1 T2]; [apply cand_S; auto|]. split; [auto|]. intro; apply T2; lia.
Qed.
Theorem C53_lowest_dG_refuted : forall N o z existing trials k t,
  o_all_solutions o = false -> o_highest_comp_diff o = false -> o_lowest_dG o = true -> - 10 ^ 100 < t_dG t ->
  shows_unstable N z (known_phases z existing) trials k t ->
  (forall k' t', shows_unstable N z (known_phases z existing) trials k' t' -> t_dG t' <= t_dG t /\ ((k' < k)%nat -> t_dG t' < t_dG t)) ->
  stability_test_Michelsen N o z existing trials = Verdict false (Some (report N (k + skipped o) t)).
Proof.
  intros N o z existing trials k t A H Lo G S T. rewrite test_unfold. cbv zeta. set (known := known_phases z existing) in *. rewrite A.
  apply cand_shows in S. destruct S as [d S].
  destruct (dG_loop N o z known H Lo A trials 0 stab_start eq_refl) as [R2 [_ R4]].
  assert (R5 : z_lowest (stab_loop N o z known 0 trials stab_start) = Some (report N k t)).
  { apply (R4 k t d S); [exact G|]. intros k' t' d' C'. apply (T k' t'). apply cand_shows; eauto. }
  assert (NA : z_always (stab_loop N o z known 0 trials stab_start) = false).
  { destruct (first_or_none N z known trials) as [F|[k1 [t1 [d1 [C F]]]]]; [exfalso; exact (F _ _ _ S)|].
    destruct (split_at _ _ _ _ _ _ _ C F) as [pre [rest [-> [L P]]]]. destruct (quiet_prefix N o z known pre (Some t1 :: rest) 0 stab_start P) as [st' [_ E]]. rewrite E.
    destruct C as [_ [C O]]. apply (first_not_always _ _ _ _ _ _ _ _ _ C O). }
  rewrite R2, NA, H, Lo, R5. cbn. rewrite number_report. reflexivity.
Qed.
(* handle_iffy: a clear instability as the first one found ends in a TypeError *)
Theorem C53_handle_iffy_refuted : forall N o z existing trials k t,
  o_all_solutions o = false -> o_highest_comp_diff o = false -> o_lowest_dG o = false -> o_handle_iffy o = true ->
  shows_unstable N z (known_phases z existing) trials k t -> 1 / 10 ^ 5 <= Rabs (t_sum t - 1) -> (forall k' t', (k' < k)%nat -> ~ shows_unstable N z (known_phases z existing) trials k' t') ->
  stability_test_Michelsen N o z existing trials = Type_error.
Proof.
  intros N o z existing trials k t A B D E S G F. rewrite test_unfold. cbv zeta. set (known := known_phases z existing) in *. rewrite A.
  apply cand_shows in S. destruct S as [d S].
  destruct (split_at N z known trials k t d S) as [pre [rest [-> [L P]]]]. { intros k' t' d' K Q. apply (F k' t' K). apply cand_shows. exists d'; auto. }
  destruct (quiet_prefix N o z known pre (Some t :: rest) 0 stab_start P) as [st' [Q EE]]. rewrite EE. destruct S as [_ [C O]]. rewrite stab_loop_cons, C, O, B, D, E, A.
  destruct (Rltb_spec (Rabs (t_sum t - 1)) (1 / 10 ^ 5)); [lra|]. cbn.
  destruct Q as [_ [_ [Q1 [_ [_ [_ [_ [_ [_ Q]]]]]]]]]. rewrite Q. cbn. rewrite O, Q1. cbn. reflexivity.
Qed.
(* highest_comp_diff with an empty list of known phases ends in a NameError *)
Theorem C53_no_known_phases_refuted : forall N o z trials k t, o_highest_comp_diff o = true -> shows_unstable N z [] trials k t ->
  stability_test_Michelsen N o z (Some []) trials = Name_error.
Proof.
  intros N o z trials k t H S. rewrite test_unfold. cbv zeta. cbn [known_phases].
  apply cand_shows in S. destruct S as [d S]. destruct (first_or_none N z [] trials) as [F|[k1 [t1 [d1 [C F]]]]]; [exfalso; exact (F _ _ _ S)|].
  destruct (split_at _ _ _ _ _ _ _ C F) as [pre [rest [-> [L P]]]]. destruct (quiet_prefix N o z [] pre (Some t1 :: rest) 0 stab_start P) as [st' [_ E]]. rewrite E.
  destruct C as [_ [C O]]. rewrite stab_loop_cons, C, O, H. cbn. reflexivity.
Qed.
(* skip passes over no guess: the trials are all used, only the number reported is shifted *)
Theorem C53_skip_refuted : forall N z existing trials n o o', o_skip o = Some n -> o_skip o' = None -> o_handle_iffy o = o_handle_iffy o' -> o_lowest_dG o = o_lowest_dG o' ->
  o_highest_comp_diff o = o_highest_comp_diff o' -> o_min_comp_diff o = o_min_comp_diff o' -> o_all_solutions o = o_all_solutions o' ->
  stability_test_Michelsen N o z existing trials = match stability_test_Michelsen N o' z existing trials with
    | Verdict b (Some s) => Verdict b (Some {| w_trial_zs := w_trial_zs s; w_appearing_zs := w_appearing_zs s; w_V := w_V s; w_i := w_i s + n; w_sum_criteria := w_sum_criteria s; w_lnK2 := w_lnK2 s; w_dG := w_dG s |})
    | r => r end.
Proof.
  intros N z existing trials n o o' S S' E1 E2 E3 E4 E5.
  assert (L : forall trials i st, stab_loop N o z (known_phases z existing) i trials st = stab_loop N o' z (known_phases z existing) i trials st).
  { clear trials. induction trials as [|[t|] l IH]; intros i st; [auto| |apply IH]. rewrite !stab_loop_cons. unfold noted. rewrite E1, E2, E3, E4, E5. cbv zeta.
    destruct (checks _ _ _ t); [|auto]. destruct (outside t); [auto|]. destruct (o_highest_comp_diff o'); [destruct (_ =? _)%nat; [auto|]; destruct (Rltb _ r); [destruct (_ && _)%bool|]; auto|].
    destruct (o_lowest_dG o'); [destruct (Rltb _ _); auto|]. destruct (_ && _)%bool; [auto|]. destruct (o_all_solutions o'); auto. }
  rewrite !test_unfold. cbv zeta. rewrite L, E1, E2, E3, E5. destruct (z_name_error _); [auto|]. destruct (o_all_solutions o'); [auto|]. destruct (z_always _); [auto|].
  match goal with |- match ?c with _ => _ end = _ => destruct c as [s|] end; [|auto]. unfold number. rewrite S, S'. reflexivity.
Qed.
(* the trial of C53_deep_instability_dropped is passed over, and the feed declared stable, although the trial composition lies ln(5/2) below
   its tangent plane *)
Theorem C53_unstable_feed_stable_refuted : forall inner maxiter xtol o existing, (2 <= maxiter)%nat -> 0 < xtol <= 4 -> o_all_solutions o = false ->
  (forall z K guess V x y, inner z K guess = Some (V, x, y) -> Rachford_Rice 2 z K V x y /\ forall i, (i < 2)%nat -> 0 <= x i) ->
  let f_trial := fun i => 101325 * half i in
  stability_test_Michelsen 2 o half existing [stability_iteration_Michelsen 2 inner 101325 half f_trial w_deep lnphi_deep maxiter xtol] = Verdict true None /\
  tangent_plane_distance 2 101325 lnphi_deep f_trial w_deep = - ln (5 / 2) /\ - ln (5 / 2) < 0.
Proof.
  intros inner maxiter xtol o existing M X A Sol ft. destruct (C53_deep_instability_dropped_refuted inner maxiter xtol M X Sol) as [_ [t [E [T1 [T2 [_ [T3 _]]]]]]].
  fold ft in E, T1, T2. rewrite E. splits.
  - apply C53_verdict; [auto|]. intros [|k] t' [H [I _]]; [|destruct k; discriminate]. cbn in H. injection H; intro; subst t'. destruct I as [[i [_ I]] _ _ _]. rewrite T3 in I. apply I; auto.
  - rewrite <- T2. unfold tangent_plane_distance. apply rsum_ext. intros i I. destruct (T1 i I) as [Q _]. unfold test_fugacity, lnphi_deep. rewrite Q. rewrite (proj1 (T1 0%nat ltac:(lia))). reflexivity.
  - assert (0 < ln (5 / 2)) by (rewrite <- ln_1; apply ln_increasing; lra). lra.
Qed.

(* ---- the hypotheses are met ---- *)
Definition ex_t (v dG : R) : trial := {| t_sum := 3 / 2; t_Ks := fun i => if Nat.eqb i 0 then 3 else / 3; t_zs_test := fun i => if Nat.eqb i 0 then 9 / 10 else 1 / 10;
  t_V := v; t_trial_zs := fun i => if Nat.eqb i 0 then / 4 else 3 / 4; t_appearing_zs := fun i => if Nat.eqb i 0 then 3 / 4 else / 4; t_dG := dG |}.
Lemma ex_informative v dG : informative 2 half [half] (ex_t v dG).
Proof.
  constructor; cbn.
  - exists 0%nat. split; [lia|]. unfold half. cbn. lra.
  - replace (3 / 2 - 1) with (/ 2) by field. rewrite Rabs_right by lra. lra.
  - assert (L : 1 / 2 < ln 3). { apply exp_lt_inv. rewrite exp_ln by lra. apply Rle_lt_trans with (exp 1); [apply Rlt_le, exp_increasing; lra|]. pose proof exp_le_3. destruct H; [auto|].
      exfalso. pose proof (exp_ineq1 (-1) ltac:(lra)) as Q. pose proof exp_le_3. clear Q H0. assert (exp (1 / 2) * exp (1 / 2) = 3) by (rewrite <- exp_plus; replace (1 / 2 + 1 / 2) with 1 by field; auto).
      pose proof (exp_ineq1 (- (1 / 2)) ltac:(lra)) as Q. rewrite exp_Ropp in Q. assert (0 < exp (1 / 2)) by apply exp_pos. assert (exp (1 / 2) < 2). { apply Rmult_lt_reg_l with (/ exp (1/2)). apply Rinv_0_lt_compat; auto. rewrite Rinv_l by lra. lra. }
      pose proof (exp_ineq1 (- (1 / 4)) ltac:(lra)) as Q4. rewrite exp_Ropp in Q4. assert (0 < exp (1 / 4)) by apply exp_pos.
      assert (exp (1 / 4) < 4 / 3). { apply Rmult_lt_reg_l with (/ exp (1/4)). apply Rinv_0_lt_compat; auto. rewrite Rinv_l by lra. lra. }
      assert (exp (1 / 4) * exp (1 / 4) = exp (1 / 2)) by (rewrite <- exp_plus; f_equal; field).
      pose proof (exp_ineq1 (- (1 / 8)) ltac:(lra)) as Q8. rewrite exp_Ropp in Q8. assert (0 < exp (1 / 8)) by apply exp_pos.
      assert (exp (1 / 8) < 8 / 7). { apply Rmult_lt_reg_l with (/ exp (1/8)). apply Rinv_0_lt_compat; auto. rewrite Rinv_l by lra. lra. }
      assert (exp (1 / 8) * exp (1 / 8) = exp (1 / 4)) by (rewrite <- exp_plus; f_equal; field).
      assert (exp (1 / 4) < 64 / 49) by nra. assert (exp (1 / 2) < 4096 / 2401) by nra. nra. }
    unfold Rsqr. rewrite ln_Rinv by lra. nra.
  - intros e [<-|[]]. unfold mean_distance, mean_relative_distance. cbn. unfold half. cbn.
    replace (/ 2 - 3 / 4) with (- / 4) by field. replace (/ 2 - / 4) with (/ 4) by field. rewrite Rabs_Ropp, (Rabs_right (/ 4)) by lra.
    destruct (Req_EM_T (3 / 4) 0); [lra|]. destruct (Req_EM_T (/ 4) 0); [lra|].
    replace (1 - / 2 / (3 / 4)) with (/ 3) by field. replace (1 - / 2 / / 4) with (- (1)) by field. rewrite Rabs_Ropp, Rabs_R1, (Rabs_right (/ 3)) by lra. lra.
Qed.
Definition ex_o (iffy lowest far : bool) (m : option R) : stab_options :=
  {| o_skip := None; o_handle_iffy := iffy; o_lowest_dG := lowest; o_highest_comp_diff := far; o_min_comp_diff := m; o_all_solutions := false |}.
Lemma ex_shows v dG : 0 < v < 1 -> informative 2 half [half] (ex_t v dG) /\ splits_feed (ex_t v dG).
Proof. intro H. split; [apply ex_informative|]. unfold splits_feed. cbn. lra. Qed.
(* two trials that show the feed unstable: lowest_dG reports the one with the greater dG, handle_iffy fails, the default reports the first *)
Example C53_test_hypotheses_met :
  let trials := [None; Some (ex_t (/ 2) (-2)); Some (ex_t (/ 3) (-1))] in
  stability_test_Michelsen 2 (ex_o false false false None) half None trials = Verdict false (Some (report 2 1 (ex_t (/ 2) (-2)))) /\
  stability_test_Michelsen 2 (ex_o false true false None) half None trials = Verdict false (Some (report 2 2 (ex_t (/ 3) (-1)))) /\
  stability_test_Michelsen 2 (ex_o true false false None) half None trials = Type_error /\
  stability_test_Michelsen 2 (ex_o false false true None) half None trials = Verdict false (Some (report 2 1 (ex_t (/ 2) (-2)))) /\
  stability_test_Michelsen 2 (ex_o false false true (Some (1 / 10))) half None trials = Verdict false (Some (report 2 1 (ex_t (/ 2) (-2)))).
Proof.
  intro trials.
  assert (S1 : shows_unstable 2 half [half] trials 1 (ex_t (/ 2) (-2))) by (split; [reflexivity|apply ex_shows; lra]).
  assert (S2 : shows_unstable 2 half [half] trials 2 (ex_t (/ 3) (-1))) by (split; [reflexivity|apply ex_shows; lra]).
  assert (F : forall k' t', (k' < 1)%nat -> ~ shows_unstable 2 half [half] trials k' t') by (intros [|k'] t' K [Q _]; [discriminate|lia]).
  assert (ONLY : forall k' t', shows_unstable 2 half [half] trials k' t' -> (k' = 1%nat /\ t' = ex_t (/ 2) (-2)) \/ (k' = 2%nat /\ t' = ex_t (/ 3) (-1))).
  { intros k' t' [Q _]. destruct k' as [|[|[|k']]]; cbn in Q; try discriminate; [left|right|destruct k'; discriminate]; split; congruence. }
  assert (NR : forall v dG, nearest 2 [half] (t_appearing_zs (ex_t v dG)) (/ 4)).
  { intros v dG. assert (E : mean_distance 2 half (t_appearing_zs (ex_t v dG)) = / 4).
    { unfold mean_distance. cbn. unfold half. cbn. replace (/ 2 - 3 / 4) with (- / 4) by field. replace (/ 2 - / 4) with (/ 4) by field. rewrite Rabs_Ropp, (Rabs_right (/ 4)) by lra. field. }
    split; [exists half; split; [cbn; auto|auto]|]. intros e [<-|[]]. rewrite E. lra. }
  assert (UN : forall v dG d, nearest 2 [half] (t_appearing_zs (ex_t v dG)) d -> d = / 4).
  { intros v dG d [[e [[<-|[]] E]] _]. destruct (NR v dG) as [[e [[<-|[]] E']] _]. congruence. }
  assert (P100 : / 4 <= 10 ^ 100) by (apply Rle_trans with 1; [lra|]; apply pow_R1_Rle; lra).
  assert (BD : distances_bounded 2 [half] trials). { intros t d [Q|[Q|[Q|[]]]] D; [discriminate|..]; injection Q; intro; subst t; apply UN in D; rewrite D; exact P100. }
  assert (P0 : 0 < 10 ^ 100) by (apply pow_lt; lra). assert (P1 : 1 <= 10 ^ 100) by (apply pow_R1_Rle; lra).
  splits.
  - apply (C53_first_reported 2 (ex_o false false false None) half None trials 1); auto.
  - apply (C53_lowest_dG_refuted 2 (ex_o false true false None) half None trials 2); auto; [change (- 10 ^ 100 < -1); destruct P1 as [P1|P1]; [lra|]|].
    + exfalso. assert (10 ^ 1 <= 10 ^ 100) by (apply Rle_pow; [lra|lia]). lra.
    + intros k' t' S. destruct (ONLY k' t' S) as [[-> ->]|[-> ->]]; cbn; split; try lra; lia.
  - apply (C53_handle_iffy_refuted 2 (ex_o true false false None) half None trials 1 (ex_t (/ 2) (-2))); auto. cbn. replace (3 / 2 - 1) with (/ 2) by field. rewrite Rabs_right by lra. lra.
  - apply (C53_farthest_reported 2 (ex_o false false true None) half None trials 1 (ex_t (/ 2) (-2)) (/ 4)); auto; [discriminate|discriminate|].
    intros k' t' d' S D. destruct (ONLY k' t' S) as [[-> ->]|[-> ->]]; apply UN in D; rewrite D; split; try lra; lia.
  - apply (C53_far_enough_reported 2 (ex_o false false true (Some (1 / 10))) half None trials 1 (ex_t (/ 2) (-2)) (/ 4) (1 / 10)); auto; try lra; [discriminate|].
    intros k' t' d' S D K. destruct (ONLY k' t' S) as [[-> ->]|[-> ->]]; lia.
Qed.
(* an ideal test phase, K = (2, 1/2): the trial from the feed converges to S = 5/4 and the verdict is unstable *)
Example C53_sound_hypotheses_met :
  let inner := one_solver 2 half K2 (/ 2) x2 y2 in let ft := fun i => 101325 * half i * exp 0 in
  let lnphi := fun (_ : comp) i => if Nat.eqb i 0 then - ln 2 else ln 2 in
  solves 2 inner /\ exists t, stability_iteration_Michelsen 2 inner 101325 half ft half lnphi 1000 (1 / 10 ^ 12) = Some t /\
    converged_at 2 inner 101325 half ft lnphi (1 / 10 ^ 12) t /\ t_sum t = 5 / 4 /\ (forall i, (i < 2)%nat -> 0 < t_zs_test t i /\ 0 < t_trial_zs t i) /\ t_V t = / 2.
Proof.
  intros inner ft lnphi. split; [apply one_solver_solves, RR2|].
  assert (KK : forall i, exp (0 - (if Nat.eqb i 0 then - ln 2 else ln 2)) = K2 i).
  { intro i. unfold K2. destruct (Nat.eqb i 0); [replace (0 - - ln 2) with (ln 2) by ring; apply exp_ln; lra|]. replace (0 - ln 2) with (- ln 2) by ring. rewrite exp_Ropp, exp_ln by lra. auto. }
  destruct (C53_ideal_exact 2 inner 101325 half half (fun _ => 0) (fun i => if Nat.eqb i 0 then - ln 2 else ln 2) 1000 (1 / 10 ^ 12)) as [t [E [TK TS]]]; try lra; try lia.
  { intros i I. unfold half. lra. }
  exists t. split; [exact E|].
  destruct TS as [TS|[_ [_ B]]].
  2:{ exfalso. cbn in B. unfold stationarity, test_fugacity, half in B. cbn in B. rewrite exp_Ropp, exp_ln, exp_0 in B by lra.
      replace (101325 * / 2 * 1 / (1 * (101325 * / 2 * / 2))) with 2 in B by field. replace (101325 * / 2 * 1 / (1 * (101325 * / 2 * 2))) with (/ 2) in B by field. unfold Rsqr in B. lra. }
  assert (S1 : t_sum t = 5 / 4). { destruct (TS 0%nat ltac:(lia)) as [Q _]. rewrite Q. cbn [rsum]. rewrite !KK. unfold K2, half. cbn [Nat.eqb]. field. }
  assert (CV : converged_at 2 inner 101325 half ft lnphi (1 / 10 ^ 12) t).
  { destruct (C53_converged 2 inner 101325 half ft half lnphi 1000 (1 / 10 ^ 12) t) as [Q|[Q _]]; auto; [cbn; unfold half; field|intros; unfold half; lra|lra]. }
  split; [exact CV|]. split; [exact S1|].
  assert (KF : forall i, (i < 2)%nat -> t_Ks t i = K2 i) by (intros i I; rewrite (TK i I); apply KK).
  assert (IN : inner half (t_Ks t) None = Some (/ 2, x2, y2)).
  { unfold inner, one_solver. replace (forallb _ _) with true; [auto|]. symmetry. apply forallb_forall. intros i I. apply in_seq in I. rewrite (KF i ltac:(lia)). unfold Reqb.
    destruct (Req_EM_T (half i) (half i)); [|congruence]. destruct (Req_EM_T (K2 i) (K2 i)); [auto|congruence]. }
  destruct CV as [_ [_ [_ [_ [_ [[V [x [y [I1 [I2 [I3 I4]]]]]]|[I1 _]]]]]]]; [|congruence]. rewrite IN in I1. injection I1; intros E3 E2 E1.
  split; [|congruence]. intros i I. split.
  - destruct (TS i I) as [_ Q]. rewrite Q, S1, KK. unfold K2, half. destruct (Nat.eqb i 0); lra.
  - rewrite I3, <- E2. unfold x2. destruct (Nat.eqb i 0); lra.
Qed.
