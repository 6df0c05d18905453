(* C66: properties of temperature and pressure: which values are remembered, and which data an answer comes from. *)
From Coq Require Import Reals Lra List Bool Arith Lia.
From Verif Require Import Base BaseFacts Model_tpdep.
Import ListNotations.
Open Scope R_scope.

(* --- specification --- *)
(* an object that was never evaluated: nothing remembered, no interpolators made *)
Definition unused (s : st) : st :=
  {| all_T := all_T s; meth_T := meth_T s; all_P := all_P s; meth_P := meth_P s; n_tab := n_tab s; tabs := tabs s; interp := []; cached := None |}.
(* histories *)
Fixpoint run (c : params) (s : st) (h : list op) : st := match h with [] => s | o :: h => run c (fst (exec c s o)) h end.
(* no data are added under the name of a series there is *)
Definition key_of (c : params) (s : st) (m : option name) : name := match m with Some k => k | None => auto_name c (n_tab s) end.
Fixpoint new_names (c : params) (s : st) (h : list op) : Prop :=
  match h with
  | [] => True
  | o :: h => match o with Add_tabular_data_P m _ _ => ~ In (key_of c s m) (map fst (tabs s)) | _ => True end /\ new_names c (fst (exec c s o)) h
  end.
(* the temperature dependent side is not changed *)
Definition changes_T (o : op) : Prop := match o with Set_method _ | Add_tabular_data _ | Add_P_correlation _ => True | _ => False end.
(* the pressure method is selected again, successfully *)
Definition resets (c : params) (s : st) (o : op) : Prop := match o with Set_method_P _ | Add_tabular_data_P _ _ _ => snd (exec c s o) = true | _ => False end.
(* since the last (re)selection of the pressure method *)
Fixpoint settled (c : params) (s : st) (h : list op) (now : Prop) : Prop :=
  match h with [] => now | o :: h => settled c (fst (exec c s o)) h (resets c s o \/ (~ changes_T o /\ now)) end.

(* --- tables --- *)
Lemma tfind_In k l : tfind k l = None <-> ~ In k (map fst l).
Proof.
  unfold tfind. induction l as [|[q u] l IH]; cbn; [tauto|]. destruct (Nat.eqb_spec q k) as [->|E]; cbn.
  - split; [discriminate|intros H; exfalso; apply H; auto].
  - rewrite IH. split; [intros H [G|G]; [congruence|tauto]|tauto].
Qed.
Lemma tfind_tset k t l q : tfind q (tset k t l) = if (k =? q)%nat then Some t else tfind q l.
Proof.
  unfold tfind. induction l as [|[p u] l IH]; cbn.
  - destruct (Nat.eqb_spec k q); reflexivity.
  - destruct (Nat.eqb_spec p k) as [->|E]; cbn.
    + destruct (Nat.eqb_spec k q); reflexivity.
    + destruct (Nat.eqb_spec p q) as [->|F]; [destruct (Nat.eqb_spec k q); [congruence|reflexivity]|exact IH].
Qed.
(* the interpolators are those of the data there are *)
Definition current (s : st) : Prop := forall k u, tfind k (interp s) = Some u -> tfind k (tabs s) = Some u.
Lemma interpolate_current c s T P m t : current s -> tfind m (tabs s) = Some t ->
  fst (interpolate_P c s T P m t) = fst (interpolate_P c (unused s) T P m t) /\
  (forall k u, tfind k (snd (interpolate_P c s T P m t)) = Some u -> tfind k (tabs s) = Some u).
Proof.
  intros C H. unfold interpolate_P. cbv zeta. destruct (negb (extrapolate c) && _) eqn:E; cbn [fst snd]; [split; [reflexivity|exact C]|].
  change (tfind m (interp (unused s))) with (@None table). destruct (tfind m (interp s)) as [old|] eqn:F.
  - pose proof (C _ _ F) as G. rewrite H in G. injection G as ->. cbn. split; [reflexivity|exact C].
  - cbn [fst snd]. split; [reflexivity|]. intros k u. rewrite tfind_tset. destruct (Nat.eqb_spec m k) as [->|D]; [congruence|apply C].
Qed.
Lemma calculate_current c s T P m : current s ->
  fst (calculate_P c s T P m) = fst (calculate_P c (unused s) T P m) /\
  (forall k u, tfind k (snd (calculate_P c s T P m)) = Some u -> tfind k (tabs s) = Some u).
Proof.
  intros C. unfold calculate_P. destruct (builtin_valid c m); [split; [reflexivity|exact C]|].
  change (tabs (unused s)) with (tabs s). destruct (tfind m (tabs s)) as [t|] eqn:E.
  - destruct (interpolate_current c s T P m t C E) as [H1 H2]. destruct (interpolate_P c s T P m t) as [v i], (interpolate_P c (unused s) T P m t) as [v' i'].
    cbn [fst snd] in *. subst v'. split; [reflexivity|exact H2].
  - destruct (m =? neglect_P c)%nat; split; reflexivity || exact C.
Qed.
Lemma TP_current c s T P : current s ->
  fst (TP_property c s T P) = fst (TP_property c (unused s) T P) /\ (forall k u, tfind k (snd (TP_property c s T P)) = Some u -> tfind k (tabs s) = Some u).
Proof.
  intros C. unfold TP_property. change (meth_P (unused s)) with (meth_P s). destruct (meth_P s) as [m|]; [|split; [reflexivity|exact C]].
  change (test_validity_P c (unused s) T P m) with (test_validity_P c s T P m). destruct (test_validity_P c s T P m) as [[|]|]; try (split; [reflexivity|exact C]).
  destruct (calculate_current c s T P m C) as [H1 H2]. destruct (calculate_P c s T P m) as [v i], (calculate_P c (unused s) T P m) as [v' i'].
  cbn [fst snd] in *. subst v'. split; [reflexivity|exact H2].
Qed.
Lemma fresh_current c s T P : current s ->
  fst (fresh c s T P) = fst (fresh c (unused s) T P) /\ (forall k u, tfind k (snd (fresh c s T P)) = Some u -> tfind k (tabs s) = Some u).
Proof. intros C. destruct P as [P|]; [apply TP_current; exact C|]. split; [reflexivity|exact C]. Qed.
Definition remembered (c : params) (s : st) : Prop := forall T P r, cached s = Some (T, P, r) -> r = fst (fresh c (unused s) T P).
Lemma optR_eqb_true a b : optR_eqb a b = true -> a = b.
Proof. destruct a, b; cbn; try discriminate; [|reflexivity]. destruct (Reqb_spec r r0); [congruence|discriminate]. Qed.
Lemma call_spec c s T P : current s -> remembered c s ->
  fst (call c s T P) = fst (fresh c (unused s) T P) /\ current (snd (call c s T P)) /\ remembered c (snd (call c s T P)) /\ unused (snd (call c s T P)) = unused s.
Proof.
  intros C M. destruct (fresh_current c s T P C) as [F1 F2]. unfold call.
  assert (G : forall k, (forall T0 P0 r, k = Some (T0, P0, r) -> r = fst (fresh c (unused s) T0 P0)) ->
    current (with_cache s (snd (fresh c s T P)) k) /\ remembered c (with_cache s (snd (fresh c s T P)) k) /\ unused (with_cache s (snd (fresh c s T P)) k) = unused s).
  { intros k Hk. split; [exact F2|]. split; [exact Hk|reflexivity]. }
  destruct (cached s) as [[[T0 P0] v]|] eqn:E.
  - destruct (Reqb_spec T T0) as [->|D]; [destruct (optR_eqb P P0) eqn:Q|]; cbn [andb].
    + apply optR_eqb_true in Q. subst P0. cbn [fst snd]. split; [apply (M T0 P v E)|]. split; [exact C|]. split; [exact M|reflexivity].
    + destruct (fresh c s T0 P) as [r i] eqn:Fr. cbn [fst snd] in *. split; [exact F1|]. apply G. destruct r; [intros T1 P1 r H; injection H as <- <- <-; exact F1|intros T1 P1 r H; apply M; rewrite E; exact H].
    + destruct (fresh c s T P) as [r i] eqn:Fr. cbn [fst snd] in *. split; [exact F1|]. apply G. destruct r; [intros T1 P1 r H; injection H as <- <- <-; exact F1|intros T1 P1 r H; apply M; rewrite E; exact H].
  - destruct (fresh c s T P) as [r i] eqn:Fr. cbn [fst snd] in *. split; [exact F1|]. apply G. destruct r; [intros T1 P1 r H; injection H as <- <- <-; exact F1|discriminate].
Qed.
(* what an operation does to the invariants *)
Lemma exec_current c s o : current s -> (match o with Add_tabular_data_P m _ _ => ~ In (key_of c s m) (map fst (tabs s)) | _ => True end) -> current (fst (exec c s o)).
Proof.
  intros C N. destruct o; cbn [exec].
  - destruct m as [q|]; [destruct (nmem q (all_T s))|]; exact C.
  - destruct m as [q|]; [destruct (nmem q (all_P s))|]; exact C.
  - exact C.
  - destruct (check && _); [exact C|]. destruct (negb (increasing (t_Ts t))); [exact C|]. destruct (negb (increasing (t_Ps t))); [exact C|].
    cbn [fst]. intros k u H. cbn [tabs interp] in *. rewrite tfind_tset. fold (key_of c s m). destruct (Nat.eqb_spec (key_of c s m) k) as [<-|D]; [|apply C; exact H].
    apply C in H. apply tfind_In in N. congruence.
  - exact C.
  - cbn [fst]. destruct (cached s) as [[[T0 P0] v]|] eqn:E; unfold call; rewrite E.
    + destruct (Reqb T T0 && optR_eqb P P0); [exact C|]. destruct (fresh_current c s T P C) as [_ F]. destruct (fresh c s T P). exact F.
    + destruct (fresh_current c s T P C) as [_ F]. destruct (fresh c s T P). exact F.
  - cbn [fst]. destruct (TP_current c s T P C) as [_ F]. exact F.
Qed.
Lemma exec_remembered c s o : current s -> ~ changes_T o -> remembered c s -> remembered c (fst (exec c s o)).
Proof.
  intros C N M. destruct o; cbn [exec] in *; try (exfalso; apply N; exact I).
  - destruct m as [q|]; [destruct (nmem q (all_P s)); [|exact M]|]; intros ? ? ?; discriminate.
  - destruct (check && _); [exact M|]. destruct (negb (increasing (t_Ts t))); [exact M|]. destruct (negb (increasing (t_Ps t))); [exact M|]. intros ? ? ?; discriminate.
  - cbn [fst]. apply call_spec; assumption.
  - cbn [fst]. exact M.
Qed.
Lemma exec_resets c s o : resets c s o -> remembered c (fst (exec c s o)).
Proof.
  destruct o; cbn [resets]; try contradiction; cbn [exec].
  - destruct m as [q|]; [destruct (nmem q (all_P s)); [|discriminate]|]; intros _ ? ? ?; discriminate.
  - destruct (check && _); [discriminate|]. destruct (negb (increasing (t_Ts t))); [discriminate|]. destruct (negb (increasing (t_Ps t))); [discriminate|]. intros _ ? ? ?; discriminate.
Qed.
Lemma run_invariant c h : forall s (now : Prop), current s -> (now -> remembered c s) -> new_names c s h -> current (run c s h) /\ (settled c s h now -> remembered c (run c s h)).
Proof.
  induction h as [|o h IH]; intros s now C M N; cbn [run settled new_names] in *; [tauto|]. destruct N as [N1 N2].
  apply IH; [apply exec_current; assumption| |exact N2]. intros [H|[H1 H2]]; [apply exec_resets; exact H|apply exec_remembered; auto].
Qed.

(* --- the claims --- *)
(* Whatever was done before, a call returns what the same object would return if it had never been evaluated, as long as no name of a series was used
   twice and the pressure method was selected again after the last change of the temperature dependent side. *)
Theorem C66_call c s h T P : interp s = [] -> cached s = None -> new_names c s h -> settled c s h True ->
  fst (call c (run c s h) T P) = match P with Some P => fst (TP_property c (unused (run c s h)) T P) | None => value_T c (meth_T (run c s h)) T end.
Proof.
  intros I K N S. destruct (run_invariant c h s True) as [C M]; [intros k u; rewrite I; discriminate|intros _ ? ? ?; rewrite K; discriminate|exact N|].
  destruct (call_spec c (run c s h) T P C (M S)) as [E _]. rewrite E. destruct P; reflexivity.
Qed.
(* and TP_dependent_property itself needs the names to differ only *)
Theorem C66_property c s h T P : interp s = [] -> cached s = None -> new_names c s h ->
  fst (TP_property c (run c s h) T P) = fst (TP_property c (unused (run c s h)) T P).
Proof.
  intros I K N. apply TP_current. apply (run_invariant c h s False); [intros k u; rewrite I; discriminate|tauto|exact N].
Qed.
(* What an accepted table gives: its interpolation where that is in the valid range of the property; without extrapolation strictly inside the table only. *)
Theorem C66_table c s m t check T P v : builtin_valid c m = None -> interp s = [] -> snd (exec c s (Add_tabular_data_P (Some m) t check)) = true ->
  let s' := fst (exec c s (Add_tabular_data_P (Some m) t check)) in
  fst (TP_property c s' T P) = Val (Some v) <->
  pmin c <= v <= pmax c /\
  (extrapolate c = true \/ (hd 0 (t_Ts t) < T < last (t_Ts t) 0 /\ hd 0 (t_Ps t) < P < last (t_Ps t) 0)) /\
  exists inside, (inside = true <-> hd 0 (t_Ts t) <= T <= last (t_Ts t) 0 /\ hd 0 (t_Ps t) <= P <= last (t_Ps t) 0) /\ interpolator c t inside T P = Some v.
Proof.
  intros B I A. cbv zeta. cbn [exec] in A |- *. destruct (check && _); [discriminate|]. destruct (negb (increasing (t_Ts t))); [discriminate|].
  destruct (negb (increasing (t_Ps t))); [discriminate|]. clear A. cbn [fst].
  set (s' := Build_st _ _ _ _ _ _ _ _). unfold TP_property. cbn [meth_P s'].
  assert (F : tfind m (tabs s') = Some t) by (cbn [tabs s']; rewrite tfind_tset, Nat.eqb_refl; reflexivity).
  unfold test_validity_P. rewrite B, F.
  set (out := Rltb T (firstR (t_Ts t)) || Rltb (lastR (t_Ts t)) T || Rltb P (firstR (t_Ps t)) || Rltb (lastR (t_Ps t)) P).
  assert (O : negb out = true <-> hd 0 (t_Ts t) <= T <= last (t_Ts t) 0 /\ hd 0 (t_Ps t) <= P <= last (t_Ps t) 0).
  { unfold out, firstR, lastR. rewrite negb_true_iff, !orb_false_iff.
    destruct (Rltb_spec T (hd 0 (t_Ts t))), (Rltb_spec (last (t_Ts t) 0) T), (Rltb_spec P (hd 0 (t_Ps t))), (Rltb_spec (last (t_Ps t) 0) P);
      (split; [intros [[[? ?] ?] ?]; try discriminate; lra|intros ?; first [exfalso; lra|repeat split]]). }
  assert (V : fst (let '(v0, i) := calculate_P c s' T P m in (match v0 with Val (Some v1) => if valid_prop c v1 then Val (Some v1) else fail c | _ => fail c end, i)) = Val (Some v)
             <-> pmin c <= v <= pmax c /\ negb (negb (extrapolate c) && out) = true /\ interpolator c t (negb out) T P = Some v).
  { unfold calculate_P. rewrite B, F. unfold interpolate_P. cbv zeta. fold out. cbn [interp s']. rewrite I, negb_involutive.
    destruct (negb (extrapolate c) && out); cbn [fst snd]; [|change (tfind m []) with (@None table); cbn [fst snd]].
    - unfold fail. destruct (raise_errors c); (split; [discriminate|intros [_ [H _]]; discriminate]).
    - destruct (interpolator c t (negb out) T P) as [w|]; cbn [fst].
      + unfold valid_prop. destruct (Rleb_spec (pmin c) w), (Rleb_spec w (pmax c)); cbn [andb]; unfold fail; destruct (raise_errors c); cbn;
          (split; [intros H; try discriminate; injection H as <-; repeat split; assumption|intros [? [_ H]]; injection H as ->; reflexivity || (exfalso; lra)]).
      + unfold fail. destruct (raise_errors c); (split; [discriminate|intros [_ [_ H]]; discriminate]). }
  destruct (extrapolate c) eqn:X.
  - rewrite V. cbn [negb andb]. split.
    + intros [H1 [_ H3]]. split; [exact H1|]. split; [left; reflexivity|]. exists (negb out). split; [exact O|exact H3].
    + intros [H1 [_ [b [H2 H3]]]]. split; [exact H1|]. split; [reflexivity|]. replace (negb out) with b; [exact H3|]. destruct b, (negb out); try reflexivity; [symmetry; apply O, H2; reflexivity|apply H2, O; reflexivity].
  - unfold firstR, lastR. destruct (Rltb_spec (hd 0 (t_Ts t)) T), (Rltb_spec T (last (t_Ts t) 0)), (Rltb_spec (hd 0 (t_Ps t)) P), (Rltb_spec P (last (t_Ps t) 0)); cbn [andb];
      try (unfold fail; destruct (raise_errors c); cbn [fst]; (split; [discriminate|intros [_ [[H|H] _]]; [discriminate|exfalso; lra]])).
    rewrite V. assert (Q : negb out = true) by (apply O; lra). cbn [negb andb]. split.
    + intros [H1 [_ H3]]. split; [exact H1|]. split; [right; lra|]. exists (negb out). split; [exact O|exact H3].
    + intros [H1 [_ [b [H2 H3]]]]. split; [exact H1|]. split; [exact Q|]. rewrite Q. replace true with b; [exact H3|]. apply H2. lra.
Qed.
(* a series stays as long as its name is not used again *)
Lemma tset_new k t l : ~ In k (map fst l) -> tset k t l = l ++ [(k, t)].
Proof. induction l as [|[q u] l IH]; cbn; [reflexivity|]. intros H. destruct (Nat.eqb_spec q k) as [->|E]; [tauto|]. rewrite IH; [reflexivity|tauto]. Qed.
Lemma exec_tabs c s o : (match o with Add_tabular_data_P m _ _ => ~ In (key_of c s m) (map fst (tabs s)) | _ => True end) -> incl (tabs s) (tabs (fst (exec c s o))).
Proof.
  intros N. destruct o; cbn [exec].
  - destruct m as [q|]; [destruct (nmem q (all_T s))|]; apply incl_refl.
  - destruct m as [q|]; [destruct (nmem q (all_P s))|]; apply incl_refl.
  - apply incl_refl.
  - destruct (check && _); [apply incl_refl|]. destruct (negb (increasing (t_Ts t))); [apply incl_refl|]. destruct (negb (increasing (t_Ps t))); [apply incl_refl|].
    cbn [fst tabs]. fold (key_of c s m). rewrite tset_new by exact N. apply incl_appl, incl_refl.
  - apply incl_refl.
  - cbn [fst]. unfold call. destruct (cached s) as [[[T0 P0] v]|]; [destruct (Reqb T T0 && optR_eqb P P0); [apply incl_refl|]|]; destruct (fresh c s T P); apply incl_refl.
  - apply incl_refl.
Qed.
Theorem C66_series_kept c h : forall s, new_names c s h -> incl (tabs s) (tabs (run c s h)).
Proof. induction h as [|o h IH]; intros s N; cbn [run]; [apply incl_refl|]. destruct N as [N1 N2]. eapply incl_tran; [apply exec_tabs; exact N1|apply IH; exact N2]. Qed.
(* The pressure method can be set to None and to an available one, and to nothing else; a refused operation changes nothing. *)
Lemma nmem_In k l : nmem k l = true <-> In k l.
Proof. unfold nmem. rewrite existsb_exists. split; [intros [x [H E]]; apply Nat.eqb_eq in E; subst; exact H|intros H; exists k; split; [exact H|apply Nat.eqb_refl]]. Qed.
Theorem C66_method_P c s m : (snd (exec c s (Set_method_P m)) = true <-> m = None \/ exists k, m = Some k /\ In k (all_P s)) /\
  (snd (exec c s (Set_method_P m)) = true -> meth_P (fst (exec c s (Set_method_P m))) = m).
Proof.
  cbn [exec]. destruct m as [k|]; [|split; [split; [auto|reflexivity]|reflexivity]]. destruct (nmem k (all_P s)) eqn:E.
  - apply nmem_In in E. split; [split; [intros _; right; exists k; auto|reflexivity]|reflexivity].
  - split; [|discriminate]. split; [discriminate|]. intros [H|[q [H1 H2]]]; [discriminate|]. injection H1 as <-. apply nmem_In in H2. congruence.
Qed.
Definition evaluates (o : op) : Prop := match o with Call _ _ | Property _ _ => True | _ => False end.
Theorem C66_refused c s o : ~ evaluates o -> snd (exec c s o) = false -> fst (exec c s o) = s.
Proof.
  intros N. destruct o; cbn [exec evaluates] in *; try tauto; try discriminate.
  - destruct m as [q|]; [destruct (nmem q (all_T s))|]; cbn; (discriminate || reflexivity).
  - destruct m as [q|]; [destruct (nmem q (all_P s))|]; cbn; (discriminate || reflexivity).
  - destruct (check && _); [reflexivity|]. destruct (negb (increasing (t_Ts t))); [reflexivity|]. destruct (negb (increasing (t_Ps t))); [reflexivity|]. discriminate.
Qed.
Lemma increasing_spec l : increasing l = true <-> forall i, (S i < length l)%nat -> nth i l 0 < nth (S i) l 0.
Proof.
  induction l as [|x l IH]; [cbn; split; [intros; lia|reflexivity]|]. cbn [increasing]. destruct l as [|y l]; [split; [cbn; intros; lia|reflexivity]|].
  rewrite andb_true_iff, IH. destruct (Rltb_spec x y) as [L|L].
  - split; [intros [_ H] i Hi; destruct i as [|i]; [exact L|apply H; cbn [length] in *; lia]|intros H; split; [reflexivity|intros i Hi; apply (H (S i)); cbn [length] in *; lia]].
  - split; [intros [H _]; discriminate|intros H; exfalso; apply L, (H 0%nat); cbn; lia].
Qed.
Theorem C66_accepted c s m t check : snd (exec c s (Add_tabular_data_P m t check)) = true <->
  (check = true -> forall row v, In row (t_rows t) -> In v row -> pmin c <= v <= pmax c) /\
  (forall i, (S i < length (t_Ts t))%nat -> nth i (t_Ts t) 0 < nth (S i) (t_Ts t) 0) /\ (forall i, (S i < length (t_Ps t))%nat -> nth i (t_Ps t) 0 < nth (S i) (t_Ps t) 0).
Proof.
  rewrite <- !increasing_spec. cbn [exec].
  assert (V : forallb (forallb (valid_prop c)) (t_rows t) = true <-> forall row v, In row (t_rows t) -> In v row -> pmin c <= v <= pmax c).
  { rewrite forallb_forall. split.
    - intros H row v H1 H2. specialize (H row H1). rewrite forallb_forall in H. specialize (H v H2). unfold valid_prop in H. apply andb_true_iff in H as [A B].
      destruct (Rleb_spec (pmin c) v), (Rleb_spec v (pmax c)); try discriminate. lra.
    - intros H row H1. apply forallb_forall. intros v H2. specialize (H row v H1 H2). unfold valid_prop. destruct (Rleb_spec (pmin c) v), (Rleb_spec v (pmax c)); try reflexivity; exfalso; lra. }
  destruct check; cbn [andb]; [destruct (forallb (forallb (valid_prop c)) (t_rows t)); cbn [negb]|].
  - destruct (increasing (t_Ts t)), (increasing (t_Ps t)); cbn; split; intros H; try discriminate; try tauto; destruct H as [_ [? ?]]; discriminate.
  - cbn. split; [discriminate|]. intros [H _]. apply V. apply H. reflexivity.
  - destruct (increasing (t_Ts t)), (increasing (t_Ps t)); cbn; split; intros H; try discriminate; try (destruct H as [_ [? ?]]; discriminate); try reflexivity. repeat split; discriminate.
Qed.
(* TP_or_T_dependent_property: the pressure method first, the temperature dependent value where that gives nothing. *)
Theorem C66_fallback c s T P : fst (TP_or_T c s T P) =
  match P with
  | None => value_T c (meth_T s) T
  | Some P => match fst (TP_property c s T P) with Val (Some v) => Val (Some v) | Val None => value_T c (meth_T s) T | Raised => Raised end
  end.
Proof. destruct P as [P|]; [|reflexivity]. unfold TP_or_T. destruct (TP_property c s T P) as [[[v|]|] i]; reflexivity. Qed.
(* without exceptions the pressure dependent property never raises for an available method with known limits *)
Theorem C66_no_exception c s T P m : raise_errors c = false -> meth_P s = Some m ->
  (exists f, builtin_valid c m = Some f) \/ (exists t, In (m, t) (tabs s)) \/ m = neglect_P c \/ (In m (all_P s) /\ limits c m <> None) ->
  exists v, fst (TP_property c s T P) = Val v /\ forall x, v = Some x -> pmin c <= x <= pmax c.
Proof.
  intros E M H. unfold TP_property. rewrite M.
  assert (A : exists b, test_validity_P c s T P m = Some b).
  { unfold test_validity_P. destruct (builtin_valid c m) eqn:B; [eexists; reflexivity|]. destruct (tfind m (tabs s)) as [t|] eqn:F; [eexists; reflexivity|].
    destruct (Nat.eqb_spec m (neglect_P c)) as [->|D]; [eexists; reflexivity|]. destruct H as [[f H]|[[t H]|[H|[H1 H2]]]]; [discriminate| |contradiction|].
    - exfalso. apply tfind_In in F. apply F. apply in_map_iff. exists (m, t). auto.
    - apply nmem_In in H1. rewrite H1. destruct (limits c m) as [[lo hi]|]; [eexists; reflexivity|contradiction]. }
  destruct A as [b A]. rewrite A. unfold fail. rewrite E. destruct b; [|exists None; split; [reflexivity|discriminate]].
  destruct (calculate_P c s T P m) as [[[v|]|] i]; cbn [fst]; [|exists None; split; [reflexivity|discriminate]..].
  unfold valid_prop. destruct (Rleb_spec (pmin c) v), (Rleb_spec v (pmax c)); cbn [andb]; try (exists None; split; [reflexivity|discriminate]).
  exists (Some v). split; [reflexivity|]. intros x Q. injection Q as <-. lra.
Qed.
(* valid_methods_P: available methods of the class that are valid, the selected one first. *)
Lemma remove1_In m l x : In x (remove1 m l) -> In x l.
Proof. unfold remove1. induction l as [|y l IH]; cbn; [auto|]. destruct (y =? m)%nat; cbn; tauto. Qed.
Lemma In_remove1 m l x : In x l -> x = m \/ In x (remove1 m l).
Proof. unfold remove1. induction l as [|y l IH]; cbn; [tauto|]. destruct (Nat.eqb_spec y m) as [->|D]; cbn; [intros [H|H]; auto|intros [H|H]; [auto|destruct (IH H); auto]]. Qed.
Lemma keep_valid_spec c s T P l : forall r, keep_valid c s T P l = Some r -> r = filter (fun m => match test_validity_P c s T P m with Some true => true | _ => false end) l.
Proof.
  induction l as [|m l IH]; cbn [keep_valid filter]; intros r H; [congruence|]. destruct (test_validity_P c s T P m) as [b|]; [|discriminate].
  destruct (keep_valid c s T P l) as [q|]; [|discriminate]. injection H as <-. rewrite <- (IH q eq_refl). destruct b; reflexivity.
Qed.
Theorem C66_valid_methods c s TP l : valid_methods_P c s TP = Some l ->
  (forall m, In m l <-> In m (ranked_P c) /\ In m (all_P s) /\ (forall T P, TP = Some (T, P) -> test_validity_P c s T P m = Some true)) /\
  (forall m, meth_P s = Some m -> In m l -> hd_error l = Some m).
Proof.
  unfold valid_methods_P. set (f := filter _ (ranked_P c)).
  assert (Hf : forall m, In m f <-> In m (ranked_P c) /\ In m (all_P s)) by (intros m; unfold f; rewrite filter_In, nmem_In; tauto).
  set (g := match meth_P s with Some m => if nmem m f then m :: remove1 m f else f | None => f end). cbv zeta.
  assert (Hg : forall m, In m g <-> In m f).
  { intros m. unfold g. destruct (meth_P s) as [q|]; [|tauto]. destruct (nmem q f) eqn:E; [|tauto]. apply nmem_In in E. cbn. split; [intros [->|H]; [exact E|apply remove1_In in H; exact H]|].
    intros H. apply (In_remove1 q) in H. destruct H; auto. }
  assert (Hh : forall m, meth_P s = Some m -> In m g -> exists r, g = m :: r).
  { intros m M H. apply Hg in H. unfold g. rewrite M. apply nmem_In in H. rewrite H. eexists. reflexivity. }
  destruct TP as [[T P]|]; intros E.
  - apply keep_valid_spec in E. subst l. split.
    + intros m. rewrite filter_In, Hg, Hf. split.
      * intros [[H1 H2] H3]. split; [exact H1|]. split; [exact H2|]. intros ? ? Q. injection Q as <- <-. destruct (test_validity_P c s T P m) as [[|]|]; [reflexivity|discriminate..].
      * intros [H1 [H2 H3]]. split; [tauto|]. rewrite (H3 T P eq_refl). reflexivity.
    + intros m M H. apply filter_In in H as [H1 H2]. destruct (Hh m M H1) as [r ->]. cbn [filter]. rewrite H2. reflexivity.
  - injection E as <-. split; [intros m; rewrite Hg, Hf; split; [intros [H1 H2]; split; [exact H1|]; split; [exact H2|discriminate]|tauto]|].
    intros m M H. destruct (Hh m M H) as [r ->]. reflexivity.
Qed.
(* a new object uses the first available method of the class, if there is one *)
Theorem C66_default c all m : default_P c all = Some m <->
  exists l1 l2, ranked_P c = l1 ++ m :: l2 /\ In m all /\ (forall q, In q l1 -> ~ In q all).
Proof.
  unfold default_P. induction (ranked_P c) as [|x l IH]; cbn [find].
  - split; [discriminate|]. intros [[|? ?] [? [H _]]]; discriminate.
  - destruct (nmem x all) eqn:E.
    + apply nmem_In in E. split; [intros H; injection H as <-; exists [], l; repeat split; [exact E|intros q []]|].
      intros [[|y l1] [l2 [H1 [H2 H3]]]]; cbn in H1; injection H1 as -> ->; [reflexivity|]. exfalso. apply (H3 y (or_introl eq_refl)). exact E.
    + rewrite IH. assert (N : ~ In x all) by (rewrite <- nmem_In; congruence). split.
      * intros [l1 [l2 [-> [H2 H3]]]]. exists (x :: l1), l2. repeat split; [exact H2|]. intros q [<-|Q]; [exact N|apply H3; exact Q].
      * intros [[|y l1] [l2 [H1 [H2 H3]]]]; cbn in H1; injection H1 as -> ->; [contradiction|]. exists l1, l2. repeat split; [exact H2|]. intros q Q. apply H3. right. exact Q.
Qed.

(* --- findings --- *)
(* an object with the temperature methods 1 (value 1) and 2 (value 2), valid everywhere; interpolation in a table gives the first number of it *)
Definition demo : params :=
  {| value_T := fun m _ => Val (match m with Some k => Some (INR k) | None => None end); valid_T := fun _ _ => true;
     builtin := fun _ _ _ _ => Raised; builtin_valid := fun _ => None; limits := fun _ => None;
     interpolator := fun t _ _ _ => Some (hd 0 (hd [] (t_rows t)));
     pmin := 0; pmax := 100; neglect_P := 9%nat; extrapolate := true; raise_errors := false; auto_name := fun k => (20 + k)%nat; ranked_P := [9%nat] |}.
Definition demo0 : st := {| all_T := [1; 2]%nat; meth_T := Some 1%nat; all_P := [9]%nat; meth_P := Some 9%nat; n_tab := 0; tabs := []; interp := []; cached := None |}.
Definition tab (v : R) : table := {| t_Ts := [300; 400]; t_Ps := [1; 2]; t_rows := [[v; v]; [v; v]] |}.
Lemma Rltb_true a b : a < b -> Rltb a b = true. Proof. intros. destruct (Rltb_spec a b); [reflexivity|contradiction]. Qed.
Lemma Rleb_true a b : a <= b -> Rleb a b = true. Proof. intros. destruct (Rleb_spec a b); [reflexivity|contradiction]. Qed.
Lemma Reqb_refl a : Reqb a a = true. Proof. destruct (Reqb_spec a a); [reflexivity|contradiction]. Qed.
Ltac ev := repeat first [rewrite Reqb_refl | rewrite Rltb_true by lra | rewrite Rleb_true by lra | progress cbn [INR fst snd andb negb orb nmem existsb Nat.eqb]].
Lemma demo_call k P s : meth_P s = Some 9%nat -> meth_T s = Some k -> all_P s = [9%nat] -> tabs s = [] -> cached s = None -> 0 <= INR k <= 100 -> fst (call demo s 300 P) = Val (Some (INR k)) /\
  cached (snd (call demo s 300 P)) = Some (300, P, Val (Some (INR k))).
Proof.
  intros H1 H2 H3 H4 H5 H6. unfold call. rewrite H5. destruct P as [P|]; unfold fresh; [|rewrite H2; cbn; auto].
  unfold TP_property. rewrite H1. unfold test_validity_P, calculate_P. rewrite H2, H3, H4. cbn [demo builtin_valid tfind find neglect_P Nat.eqb valid_T value_T].
  unfold valid_prop. cbn [demo pmin pmax]. rewrite !Rleb_true by lra. cbn. auto.
Qed.
(* The selected method changes, the answer to the same question does not: the setter of the temperature dependent method forgets the wrong cache. *)
Theorem C66_stale_refuted : exists c s T P, cached s = None /\ interp s = [] /\
  (let s1 := snd (call c s T P) in let s2 := fst (exec c s1 (Set_method (Some 2%nat))) in
   snd (exec c s1 (Set_method (Some 2%nat))) = true /\ fst (call c s2 T P) = Val (Some 1) /\ fst (call c (unused s2) T P) = Val (Some 2)).
Proof.
  exists demo, demo0, 300, (Some 1). split; [reflexivity|]. split; [reflexivity|]. cbv zeta.
  destruct (demo_call 1%nat (Some 1) demo0) as [A B]; try reflexivity; [cbn; lra|].
  split; [|split].
  - cbn [exec]. unfold call. cbn [demo0 cached]. destruct (fresh demo demo0 300 (Some 1)) as [r i] eqn:F. cbn. reflexivity.
  - assert (C : cached (fst (exec demo (snd (call demo demo0 300 (Some 1))) (Set_method (Some 2%nat)))) = Some (300, Some 1, Val (Some (INR 1)))).
    { rewrite <- B. cbn [exec]. destruct (nmem 2%nat _); reflexivity. }
    unfold call at 1. rewrite C. cbn [optR_eqb]. rewrite !Reqb_refl. cbn. reflexivity.
  - replace (Val (Some 2)) with (Val (Some (INR 2))) by (repeat f_equal; cbn; lra). apply demo_call; try reflexivity; try (cbn; lra).
Qed.
(* A pressure dependent correlation that was added changes the temperature dependent method, and cannot be selected as the pressure method. *)
Theorem C66_P_correlation_refuted : exists c s m,
  (let s1 := fst (exec c s (Add_P_correlation m)) in
   meth_T s1 = Some m /\ meth_T s <> Some m /\ meth_P s1 = meth_P s /\ snd (exec c s1 (Set_method_P (Some m))) = false).
Proof. exists demo, demo0, 5%nat. cbn. repeat split. discriminate. Qed.
(* Two series without names: the second replaces the first. *)
Theorem C66_unnamed_refuted : exists c s t1 t2, t1 <> t2 /\
  (let s1 := fst (exec c s (Add_tabular_data_P None t1 false)) in let s2 := fst (exec c s1 (Add_tabular_data_P None t2 false)) in
   snd (exec c s (Add_tabular_data_P None t1 false)) = true /\ snd (exec c s1 (Add_tabular_data_P None t2 false)) = true /\ map snd (tabs s2) = [t2]).
Proof.
  exists demo, demo0, (tab 1), (tab 2). split; [intros H; injection H as H; lra|]. cbv zeta.
  cbn [exec andb]. assert (I1 : increasing [300; 400] = true) by (cbn [increasing]; rewrite Rltb_true by lra; reflexivity).
  assert (I2 : increasing [1; 2] = true) by (cbn [increasing]; rewrite Rltb_true by lra; reflexivity).
  cbn [tab t_Ts t_Ps]. rewrite I1, I2. cbn [negb fst snd exec tabs n_tab demo0 demo auto_name andb t_Ts t_Ps tab]. rewrite ?I1, ?I2. cbn. auto.
Qed.
(* and when the first was used before, the answers still come from it: the interpolators are kept by name *)
Theorem C66_replaced_refuted : exists c s t1 t2 T P,
  (let s1 := fst (exec c s (Add_tabular_data_P None t1 false)) in let s2 := fst (exec c s1 (Property T P)) in let s3 := fst (exec c s2 (Add_tabular_data_P None t2 false)) in
   map snd (tabs s3) = [t2] /\ fst (TP_property c s3 T P) = Val (Some 1) /\ fst (TP_property c (unused s3) T P) = Val (Some 2)).
Proof.
  exists demo, demo0, (tab 1), (tab 2), 350, 1. cbv zeta.
  assert (I1 : increasing [300; 400] = true) by (cbn [increasing]; rewrite Rltb_true by lra; reflexivity).
  assert (I2 : increasing [1; 2] = true) by (cbn [increasing]; rewrite Rltb_true by lra; reflexivity).
  set (s1 := fst (exec demo demo0 (Add_tabular_data_P None (tab 1) false))).
  assert (E1 : s1 = {| all_T := [1; 2]%nat; meth_T := Some 1%nat; all_P := [9; 20]%nat; meth_P := Some 20%nat; n_tab := 0; tabs := [(20%nat, tab 1)]; interp := []; cached := None |}).
  { unfold s1. cbn [exec andb tab t_Ts t_Ps]. rewrite I1, I2. reflexivity. }
  set (s2 := fst (exec demo s1 (Property 350 1))).
  assert (E2 : s2 = {| all_T := [1; 2]%nat; meth_T := Some 1%nat; all_P := [9; 20]%nat; meth_P := Some 20%nat; n_tab := 0; tabs := [(20%nat, tab 1)]; interp := [(20%nat, tab 1)]; cached := None |}).
  { unfold s2. rewrite E1. cbn [exec fst]. unfold with_cache. cbn [all_T meth_T all_P meth_P n_tab tabs cached]. f_equal. }
  set (s3 := fst (exec demo s2 (Add_tabular_data_P None (tab 2) false))).
  assert (E3 : s3 = {| all_T := [1; 2]%nat; meth_T := Some 1%nat; all_P := [9; 20]%nat; meth_P := Some 20%nat; n_tab := 0; tabs := [(20%nat, tab 2)]; interp := [(20%nat, tab 1)]; cached := None |}).
  { unfold s3. rewrite E2. cbn [exec andb tab t_Ts t_Ps]. rewrite I1, I2. reflexivity. }
  rewrite E3. split; [reflexivity|].
  unfold TP_property, unused. cbn [meth_P]. unfold test_validity_P, calculate_P, interpolate_P, tfind.
  cbn [tabs interp demo builtin_valid find fst snd Nat.eqb extrapolate negb andb interpolator tab t_rows hd].
  unfold valid_prop. cbn [demo pmin pmax]. rewrite !Rleb_true by lra. cbn. auto.
Qed.
(* Without extrapolation the first and the last temperature of a table are refused, although its interpolation is defined there. *)
Theorem C66_ends_refuted : exists c s t T P, extrapolate c = false /\ T = hd 0 (t_Ts t) /\ hd 0 (t_Ps t) < P < last (t_Ps t) 0 /\ (exists v, interpolator c t true T P = Some v /\ pmin c <= v <= pmax c) /\
  snd (exec c s (Add_tabular_data_P (Some 7%nat) t true)) = true /\ fst (TP_property c (fst (exec c s (Add_tabular_data_P (Some 7%nat) t true))) T P) = Val None.
Proof.
  set (c := {| value_T := value_T demo; valid_T := valid_T demo; builtin := builtin demo; builtin_valid := builtin_valid demo; limits := limits demo; interpolator := interpolator demo;
     pmin := 0; pmax := 100; neglect_P := 9%nat; extrapolate := false; raise_errors := false; auto_name := auto_name demo; ranked_P := [9%nat] |}).
  exists c, demo0, (tab 1), 300, 1.5. split; [reflexivity|]. split; [reflexivity|]. split; [cbn; lra|]. split; [exists 1; split; [reflexivity|cbn; lra]|].
  assert (A : snd (exec c demo0 (Add_tabular_data_P (Some 7%nat) (tab 1) true)) = true).
  { apply C66_accepted. split; [|split].
    - intros _ row v H1 H2. cbn in H1. destruct H1 as [<-|[<-|[]]]; cbn in H2; destruct H2 as [<-|[<-|[]]]; cbn; lra.
    - intros [|[|i]] H; cbn in *; try lia; lra.
    - intros [|[|i]] H; cbn in *; try lia; lra. }
  split; [exact A|].
  destruct (fst (TP_property c (fst (exec c demo0 (Add_tabular_data_P (Some 7%nat) (tab 1) true))) 300 1.5)) as [[v|]|] eqn:E; [|reflexivity|].
  - exfalso. apply (C66_table c demo0 7%nat (tab 1) true 300 1.5 v eq_refl eq_refl A) in E. destruct E as [_ [[H|H] _]]; [discriminate|]. cbn in H. lra.
  - exfalso. set (s' := fst (exec c demo0 (Add_tabular_data_P (Some 7%nat) (tab 1) true))) in *.
    destruct (C66_no_exception c s' 300 1.5 7%nat) as [v [H _]]; [reflexivity| | |congruence].
    + unfold s'. cbn [exec] in A |- *. destruct (true && _); [discriminate|]. destruct (negb _); [discriminate|]. destruct (negb _); [discriminate|]. reflexivity.
    + right. left. exists (tab 1). unfold s'. cbn [exec] in A |- *. destruct (true && _); [discriminate|]. destruct (negb _); [discriminate|]. destruct (negb _); [discriminate|]. left. reflexivity.
Qed.
(* Tables and other methods that were added never appear among the valid methods. *)
Theorem C66_added_not_listed_refuted : exists c s t l, snd (exec c s (Add_tabular_data_P (Some 7%nat) t false)) = true /\
  (let s1 := fst (exec c s (Add_tabular_data_P (Some 7%nat) t false)) in meth_P s1 = Some 7%nat /\ valid_methods_P c s1 None = Some l /\ ~ In 7%nat l).
Proof.
  exists demo, demo0, (tab 1), [9%nat].
  assert (I1 : increasing [300; 400] = true) by (cbn [increasing]; rewrite Rltb_true by lra; reflexivity).
  assert (I2 : increasing [1; 2] = true) by (cbn [increasing]; rewrite Rltb_true by lra; reflexivity).
  cbn [exec andb tab t_Ts t_Ps]. rewrite I1, I2. split; [reflexivity|]. split; [reflexivity|]. split; [reflexivity|]. intros [H|[]]; discriminate.
Qed.
(* with exceptions on, the fallback to the temperature dependent value never happens *)
Theorem C66_fallback_refuted : exists c s T P v, raise_errors c = true /\ meth_P s = None /\ value_T c (meth_T s) T = Val (Some v) /\ fst (TP_or_T c s T (Some P)) = Raised.
Proof.
  exists {| value_T := value_T demo; valid_T := valid_T demo; builtin := builtin demo; builtin_valid := builtin_valid demo; limits := limits demo; interpolator := interpolator demo;
     pmin := 0; pmax := 100; neglect_P := 9%nat; extrapolate := true; raise_errors := true; auto_name := auto_name demo; ranked_P := [9%nat] |},
    {| all_T := [1; 2]%nat; meth_T := Some 1%nat; all_P := [9]%nat; meth_P := None; n_tab := 0; tabs := []; interp := []; cached := None |}, 300, 1, (INR 1). repeat split.
Qed.

(* --- the hypotheses are met: two named tables, calls in between, then a change of the temperature dependent method and the pressure method selected again --- *)
Example C66_hypotheses_met :
  let h := [Call 300 (Some 1); Add_tabular_data_P (Some 7%nat) (tab 1) true; Call 350 (Some 1.5); Add_tabular_data_P (Some 8%nat) (tab 2) false; Call 350 (Some 1.5);
            Set_method (Some 2%nat); Set_method_P (Some 9%nat)] in
  interp demo0 = [] /\ cached demo0 = None /\ new_names demo demo0 h /\ settled demo demo0 h True /\ fst (call demo (run demo demo0 h) 350 (Some 1.5)) = Val (Some 2).
Proof.
  intros h. split; [reflexivity|]. split; [reflexivity|].
  assert (A : forall s m v b, v = 1 \/ v = 2 -> snd (exec demo s (Add_tabular_data_P (Some m) (tab v) b)) = true).
  { intros s m v b Hv. apply C66_accepted. split; [|split].
    - intros _ row w H1 H2. cbn in H1. destruct H1 as [<-|[<-|[]]]; cbn in H2; destruct H2 as [<-|[<-|[]]]; cbn; lra.
    - intros [|[|i]] H; cbn in *; try lia; lra.
    - intros [|[|i]] H; cbn in *; try lia; lra. }
  assert (D : forall s m v b, v = 1 \/ v = 2 -> fst (exec demo s (Add_tabular_data_P (Some m) (tab v) b)) =
    {| all_T := all_T s; meth_T := meth_T s; all_P := nadd m (all_P s); meth_P := Some m; n_tab := n_tab s; tabs := tset m (tab v) (tabs s); interp := interp s; cached := None |}).
  { intros s m v b Hv. specialize (A s m v b Hv). cbn [exec] in A |- *. destruct (b && _); [discriminate|]. destruct (negb _); [discriminate|]. destruct (negb _); [discriminate|]. reflexivity. }
  assert (K : forall s T P, let s' := snd (call demo s T P) in all_T s' = all_T s /\ meth_T s' = meth_T s /\ all_P s' = all_P s /\ meth_P s' = meth_P s /\ tabs s' = tabs s).
  { intros s T P. cbv zeta. unfold call. destruct (cached s) as [[[T0 P0] v]|]; [destruct (Reqb T T0 && optR_eqb P P0); [auto|]|]; destruct (fresh demo s T P); cbn; auto. }
  set (s1 := snd (call demo demo0 300 (Some 1))). pose proof (K demo0 300 (Some 1)) as K1. cbv zeta in K1. fold s1 in K1.
  set (s2 := fst (exec demo s1 (Add_tabular_data_P (Some 7%nat) (tab 1) true))). pose proof (D s1 7%nat 1 true (or_introl eq_refl)) as D2. match type of D2 with _ = ?r => change (s2 = r) in D2 end.
  set (s3 := snd (call demo s2 350 (Some 1.5))). pose proof (K s2 350 (Some 1.5)) as K3. cbv zeta in K3. fold s3 in K3.
  set (s4 := fst (exec demo s3 (Add_tabular_data_P (Some 8%nat) (tab 2) false))). pose proof (D s3 8%nat 2 false (or_intror eq_refl)) as D4. match type of D4 with _ = ?r => change (s4 = r) in D4 end.
  set (s5 := snd (call demo s4 350 (Some 1.5))). pose proof (K s4 350 (Some 1.5)) as K5. cbv zeta in K5. fold s5 in K5.
  destruct K1 as (a1 & a2 & a3 & a4 & a5), K3 as (b1 & b2 & b3 & b4 & b5), K5 as (e1 & e2 & e3 & e4 & e5).
  assert (T2 : tabs s2 = [(7%nat, tab 1)]) by (rewrite D2; cbn [tabs]; rewrite a5; reflexivity).
  assert (T4 : tabs s4 = [(7%nat, tab 1); (8%nat, tab 2)]) by (rewrite D4; cbn [tabs]; rewrite b5, T2; reflexivity).
  assert (M5 : all_P s5 = [9; 7; 8]%nat) by (rewrite e3, D4; cbn [all_P]; rewrite b3, D2; cbn [all_P]; rewrite a3; reflexivity).
  assert (L5 : all_T s5 = [1; 2]%nat) by (rewrite e1, D4; cbn [all_T]; rewrite b1, D2; cbn [all_T]; rewrite a1; reflexivity).
  split; [|split].
  - unfold h. cbn [new_names]. change (fst (exec demo demo0 (Call 300 (Some 1)))) with s1. fold s2. change (fst (exec demo s2 (Call 350 (Some 1.5)))) with s3.
    repeat split; cbn [key_of]; [rewrite a5; intros []|rewrite b5, T2; cbn; intros [H|[]]; discriminate].
  - unfold h. cbn [settled]. left. cbn [resets].
    change (fst (exec demo demo0 (Call 300 (Some 1)))) with s1. fold s2. change (fst (exec demo s2 (Call 350 (Some 1.5)))) with s3. fold s4. change (fst (exec demo s4 (Call 350 (Some 1.5)))) with s5.
    cbn [exec]. rewrite L5. cbn [nmem existsb Nat.eqb orb fst]. cbn [with_method_T all_P]. rewrite M5. reflexivity.
  - unfold h. cbn [run]. change (fst (exec demo demo0 (Call 300 (Some 1)))) with s1. fold s2. change (fst (exec demo s2 (Call 350 (Some 1.5)))) with s3. fold s4. change (fst (exec demo s4 (Call 350 (Some 1.5)))) with s5.
    cbn [exec]. rewrite L5. cbn [nmem existsb Nat.eqb orb fst]. cbn [with_method_T all_P]. rewrite M5. cbn [nmem existsb Nat.eqb orb fst].
    unfold call. cbn [with_method_P with_method_T cached]. unfold fresh, TP_property. cbn [with_method_P meth_P]. unfold test_validity_P, calculate_P.
    cbn [demo builtin_valid with_method_P with_method_T tabs]. rewrite e5, T4. cbn [tfind find fst snd Nat.eqb neglect_P demo with_method_P with_method_T meth_T valid_T value_T].
    unfold valid_prop, with_method_P, with_method_T; cbn [meth_T INR]. cbn [demo pmin pmax]. rewrite !Rleb_true by lra. cbn. repeat f_equal.
Qed.
