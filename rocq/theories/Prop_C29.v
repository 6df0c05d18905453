(* C29: specification accounting of StreamArgs over any history of assignments. *)
From Coq Require Import Reals List Bool Arith Lra Lia.
From Verif Require Import Base BaseFacts Model_stream.
Import ListNotations.
Open Scope R_scope.

(* ---- specification: what is stored, counted over the names a user can assign ---- *)
Definition state_names : list key := map KS
  [f_T; f_P; f_V; f_rho; f_rho_mass; f_VF; f_H; f_H_mass; f_S; f_S_mass; f_U; f_U_mass; f_A; f_A_mass; f_G; f_G_mass;
   f_energy; f_energy_reactive; f_H_reactive].
Definition composition_names : list key := map KL [f_zs; f_ws; f_Vfls; f_Vfgs; f_ns; f_ms; f_Qls; f_Qgs].
Definition flow_names : list key :=
  [KL f_ns; KL f_ms; KL f_Qls; KL f_Qgs; KS f_n; KS f_m; KS f_Q; KS f_Ql; KS f_Qg].
Definition number (names : list key) (s : args) : nat := length (filter (stored s) names).

(* objects reachable from a constructor call by any history of statements *)
Definition reachable (kw : args) (s : args) : Prop :=
  exists solve MWs s0 cs, construct solve MWs kw = Some s0 /\ s = run cs s0.

(* ---- counting ---- *)
Definition key_eq_dec (a b : key) : {a = b} + {a <> b}.
Proof. decide equality; [apply sf_eq_dec | apply lf_eq_dec]. Defined.

Lemma number_mono l s s' : (forall k, In k l -> stored s' k = true -> stored s k = true) -> (number l s' <= number l s)%nat.
Proof.
  unfold number. induction l as [|a l IH]; intros H; simpl; [lia|].
  assert (IH' : (length (filter (stored s') l) <= length (filter (stored s) l))%nat) by (apply IH; intros; apply H; simpl; auto).
  destruct (stored s' a) eqn:E.
  - rewrite (H a); simpl; auto; lia.
  - destruct (stored s a); simpl; lia.
Qed.

Lemma number_step l s s' k0 : NoDup l ->
  (forall k, In k l -> k <> k0 -> stored s' k = true -> stored s k = true) -> (number l s' <= S (number l s))%nat.
Proof.
  unfold number. induction l as [|a l IH]; intros N H; simpl; [lia|].
  inversion N; subst.
  destruct (key_eq_dec a k0) as [->|D].
  - assert (M : (number l s' <= number l s)%nat).
    { apply number_mono. intros k I. apply H; simpl; auto. intros ->; contradiction. }
    unfold number in M. destruct (stored s' k0), (stored s k0); simpl; lia.
  - assert (IH' : (length (filter (stored s') l) <= S (length (filter (stored s) l)))%nat)
      by (apply IH; auto; intros; apply H; simpl; auto).
    destruct (stored s' a) eqn:E.
    + rewrite (H a); simpl; auto; lia.
    + destruct (stored s a); simpl; lia.
Qed.

Lemma number_one l s k0 : NoDup l -> (forall k, In k l -> stored s k = true -> k = k0) -> (number l s <= 1)%nat.
Proof.
  unfold number. induction l as [|a l IH]; intros N H; simpl; [lia|]. inversion N; subst.
  destruct (stored s a) eqn:E.
  - assert (a = k0) by (apply H; simpl; auto). subst.
    assert (Z : filter (stored s) l = []).
    { clear IH N H3. assert (Q : forall k, In k l -> stored s k = false).
      { intros k I. destruct (stored s k) eqn:F; auto. exfalso. apply H2. rewrite <- (H k); simpl; auto. }
      clear - Q. induction l; simpl; auto. rewrite Q by (simpl; auto). apply IHl. intros; apply Q; simpl; auto. }
    rewrite Z. simpl; lia.
  - apply IH; auto. intros; apply H; simpl; auto.
Qed.

Lemma number_two l s a b : In a l -> In b l -> a <> b -> stored s a = true -> stored s b = true -> (2 <= number l s)%nat.
Proof.
  intros Ia Ib D A B. unfold number.
  assert (N : NoDup [a; b]) by (constructor; [simpl; intuition congruence | constructor; [simpl; auto | constructor]]).
  change 2%nat with (length [a; b]). apply NoDup_incl_length; auto.
  intros k [<-|[<-|[]]]; apply filter_In; auto.
Qed.

Lemma number_pos l s a : In a l -> stored s a = true -> (1 <= number l s)%nat.
Proof.
  intros I A. unfold number. assert (J : In a (filter (stored s) l)) by (apply filter_In; auto).
  destruct (filter (stored s) l); simpl in *; [tauto | lia].
Qed.

Lemma number_0 l s : number l s = 0%nat <-> (forall k, In k l -> stored s k = false).
Proof.
  split.
  - intros Z k I. destruct (stored s k) eqn:E; auto. pose proof (number_pos l s k I E). lia.
  - intros H. unfold number. induction l as [|a l IH]; simpl; auto.
    rewrite H by (simpl; auto). apply IH. intros; apply H; simpl; auto.
Qed.

Ltac nodup := repeat constructor; simpl; intuition congruence.
Lemma nd_state : NoDup state_names. Proof. nodup. Qed.
Lemma nd_comp : NoDup composition_names. Proof. nodup. Qed.
Lemma nd_flow : NoDup flow_names. Proof. nodup. Qed.

(* ---- effect of the primitive updates ---- *)
Ltac kd := match goal with |- context [key_eq_dec ?a ?b] => destruct (key_eq_dec a b) end.
Lemma stored_put s k v j : stored (put s k v) j = if key_eq_dec j (KS k) then isSome v else stored s j.
Proof.
  destruct j as [j|j]; cbn [stored put putl sc ls].
  - destruct (sf_eq_dec j k) as [->|D]; kd; try congruence.
  - kd; congruence.
Qed.
Lemma stored_putl s k v j : stored (putl s k v) j = if key_eq_dec j (KL k) then isSome v else stored s j.
Proof.
  destruct j as [j|j]; cbn [stored put putl sc ls].
  - kd; congruence.
  - destruct (lf_eq_dec j k) as [->|D]; kd; try congruence.
Qed.
Lemma stored_clear ks : forall s j, stored (clear s ks) j = if in_dec key_eq_dec j (map KS ks) then false else stored s j.
Proof.
  induction ks as [|k ks IH]; intros s j; [reflexivity|].
  change (clear s (k :: ks)) with (clear (put s k None) ks). rewrite IH, stored_put.
  destruct (in_dec key_eq_dec j (map KS ks)), (in_dec key_eq_dec j (map KS (k :: ks))), (key_eq_dec j (KS k)); auto;
    simpl in *; intuition congruence.
Qed.
Lemma stored_clearl ks : forall s j, stored (clearl s ks) j = if in_dec key_eq_dec j (map KL ks) then false else stored s j.
Proof.
  induction ks as [|k ks IH]; intros s j; [reflexivity|].
  change (clearl s (k :: ks)) with (clearl (putl s k None) ks). rewrite IH, stored_putl.
  destruct (in_dec key_eq_dec j (map KL ks)), (in_dec key_eq_dec j (map KL (k :: ks))), (key_eq_dec j (KL k)); auto;
    simpl in *; intuition congruence.
Qed.
Lemma multi_clear ks : forall s, multi (clear s ks) = multi s.
Proof. induction ks; intros; auto. change (clear s (a :: ks)) with (clear (put s a None) ks). now rewrite IHks. Qed.
Lemma multi_clearl ks : forall s, multi (clearl s ks) = multi s.
Proof. induction ks; intros; auto. change (clearl s (a :: ks)) with (clearl (putl s a None) ks). now rewrite IHks. Qed.

Global Opaque clear clearl.

Ltac keys := repeat (rewrite ?stored_put, ?stored_putl, ?stored_clear, ?stored_clearl in *);
  repeat match goal with
  | |- context [key_eq_dec ?a ?b] => destruct (key_eq_dec a b)
  | H : context [key_eq_dec ?a ?b] |- _ => destruct (key_eq_dec a b)
  | |- context [in_dec ?d ?a ?b] => destruct (in_dec d a b)
  | H : context [in_dec ?d ?a ?b] |- _ => destruct (in_dec d a b)
  end.

(* ---- the predicates say what is stored ---- *)
Lemma specs_flow s : flow_specified s = true <-> exists k, In k flow_names /\ stored s k = true.
Proof.
  unfold flow_specified. split.
  - intros H. repeat match type of H with (if ?b then _ else _) = true => destruct b eqn:? end;
      (eexists; split; [|eassumption]); simpl; tauto.
  - intros (k & I & E). simpl in I.
    repeat (destruct I as [<-|I]; [rewrite E; repeat match goal with |- context [if ?b then _ else _] => destruct b end; reflexivity|]).
    destruct I.
Qed.

Theorem C29_flow_specified s : flow_specified s = true <-> number flow_names s <> 0%nat.
Proof.
  rewrite specs_flow. split.
  - intros (k & I & E) Z. pose proof (number_pos _ _ _ I E). lia.
  - intros H. destruct (filter (stored s) flow_names) as [|k l] eqn:F; [unfold number in H; rewrite F in H; contradiction|].
    exists k. apply filter_In. rewrite F. simpl; auto.
Qed.

Lemma len_perm {A} (f : A -> bool) (l l' : list A) : NoDup l -> NoDup l' -> (forall x, In x l <-> In x l') ->
  length (filter f l) = length (filter f l').
Proof.
  intros N N' H. apply Nat.le_antisymm; apply NoDup_incl_length;
    try (apply NoDup_filter; assumption); intros x; rewrite !filter_In, H; tauto.
Qed.

Lemma number_map l s : number (map KS l) s = length (filter (fun k => isSome (sc s k)) l).
Proof. unfold number. induction l as [|k l IH]; simpl; auto. destruct (isSome (sc s k)); simpl; rewrite IH; reflexivity. Qed.
Lemma number_mapl l s : number (map KL l) s = length (filter (fun k => isSome (ls s k)) l).
Proof. unfold number. induction l as [|k l IH]; simpl; auto. destruct (isSome (ls s k)); simpl; rewrite IH; reflexivity. Qed.

Lemma nineteen s : length (filter (fun k => isSome (sc s k)) (state_vars18 ++ [f_H_reactive])) = number state_names s.
Proof.
  unfold state_names. rewrite number_map. apply len_perm; [nodup | nodup |].
  intros k; destruct k; simpl; intuition congruence.
Qed.

Theorem C29_state_specified s : state_specified s = true <-> number state_names s = 2%nat.
Proof. unfold state_specified. rewrite nineteen. apply Nat.eqb_eq. Qed.

Theorem C29_specified_state_vars s :
  specified_state_vars s = (number state_names s - if isSome (sc s f_H_reactive) then 1 else 0)%nat.
Proof.
  unfold specified_state_vars. rewrite <- nineteen, filter_app, app_length.
  generalize (length (filter (fun k => isSome (sc s k)) state_vars18)). intros N. cbn [filter].
  destruct (isSome (sc s f_H_reactive)); simpl; lia.
Qed.

Theorem C29_specified_flow_vars s : specified_flow_vars s = number flow_names s.
Proof. unfold specified_flow_vars, number. apply len_perm; [nodup | nodup |]. intros k; simpl; tauto. Qed.

Theorem C29_non_pressure_spec_specified s :
  non_pressure_spec_specified s = true <-> exists k, In k state_names /\ k <> KS f_P /\ stored s k = true.
Proof.
  unfold non_pressure_spec_specified. rewrite Nat.leb_le, <- number_map.
  match goal with |- (1 <= number ?l _)%nat <-> _ => set (L := l) end.
  assert (Q : forall k, In k L <-> In k state_names /\ k <> KS f_P).
  { intros [k|k]; destruct k; simpl; intuition congruence. }
  split.
  - intros H. destruct (filter (stored s) L) as [|k l] eqn:F; [unfold number in H; rewrite F in H; simpl in H; lia|].
    assert (I : In k (filter (stored s) L)) by (rewrite F; simpl; auto).
    apply filter_In in I. destruct I as [I E]. exists k. apply Q in I. tauto.
  - intros (k & I & D & E). apply (number_pos L s k); auto. apply Q; auto.
Qed.

(* the composition is reported as specified exactly when some stored list has no unknown entry, and is not an
   all-cancelling list of fractions *)
Theorem C29_composition_specified s :
  composition_specified s = true <->
  exists k l, ls s k = Some l /\ ~ In None l /\ (In k [f_zs; f_ws; f_Vfls; f_Vfgs] -> lsum (vals l) <> 0).
Proof.
  assert (C : forall l : vec, complete l = true <-> ~ In None l).
  { intros l. unfold complete. rewrite forallb_forall. split.
    - intros H I. apply H in I. discriminate.
    - intros H x I. destruct x; auto. }
  unfold composition_specified. split.
  - intros H. repeat match type of H with (if ?b then _ else _) = true => destruct b eqn:?E; [clear H | clear E] end.
    1-4: match goal with E : match ls ?s ?k with _ => _ end = true |- _ => destruct (ls s k) as [l|] eqn:L; [|discriminate];
      apply andb_true_iff in E; destruct E as [E1 E2]; exists k, l; split; [exact L | split; [apply C; exact E1|]] end;
      intros _; intros Z; rewrite (Reqb_true _ _ Z) in E2; discriminate.
    1-3: match goal with E : match ls ?s ?k with _ => _ end = true |- _ => destruct (ls s k) as [l|] eqn:L; [|discriminate];
      exists k, l; split; [exact L | split; [apply C; exact E|]] end; simpl; intuition congruence.
    destruct (ls s f_Qgs) as [l|] eqn:L; [|discriminate]. exists f_Qgs, l. split; [exact L | split; [apply C; exact H|]].
    simpl; intuition congruence.
  - intros (k & l & L & N & Z). apply C in N.
    destruct k; rewrite L; rewrite N; cbn [andb]; try (rewrite (Reqb_false _ _ (Z ltac:(simpl; auto)))); cbn [negb];
      repeat match goal with |- context [if ?b then _ else _] => destruct b end; reflexivity.
Qed.

(* the spec reported is one that is stored; none is reported only when none is stored *)
Theorem C29_composition_spec s :
  (forall k, composition_spec s = Some k -> ls s k <> None) /\
  (composition_spec s = None <-> number composition_names s = 0%nat).
Proof.
  split.
  - intros k F. apply find_some in F. destruct F as [_ F]. destruct (ls s k); simpl in F; congruence.
  - rewrite number_0. split.
    + intros F k I. unfold composition_names in I. apply in_map_iff in I. destruct I as (j & <- & I).
      apply (find_none _ _ F). simpl in *; tauto.
    + intros H. unfold composition_spec. destruct (find _ _) as [k|] eqn:F; auto.
      apply find_some in F. destruct F as [I F]. specialize (H (KL k) (in_map KL _ _ I)). simpl in H. congruence.
Qed.
Theorem C29_flow_spec s :
  (forall k, flow_spec s = Some k -> stored s k = true /\ In k flow_names) /\
  (flow_spec s = None <-> number flow_names s = 0%nat).
Proof.
  assert (Q : forall k, In k flow_order <-> In k flow_names) by (intros k; simpl; tauto).
  split.
  - intros k F. apply find_some in F. rewrite Q in F. tauto.
  - rewrite number_0. split.
    + intros F k I. apply (find_none _ _ F). apply Q; exact I.
    + intros H. unfold flow_spec. destruct (find _ _) as [k|] eqn:F; auto.
      apply find_some in F. destruct F as [I F]. rewrite H in F by (apply Q; auto). discriminate.
Qed.

Opaque state_specified specified_state_vars flow_specified flow_spec composition_spec.

(* ---- an exception leaves the object as it was ---- *)
Theorem C29_exception_changes_nothing c s s' : exec c s = Raised s' -> s' = s.
Proof.
  destruct c as [k v|k v| | |]; simpl; try discriminate.
  - destruct k, v; cbn; try discriminate;
      unfold set_state_a, set_state_b, set_energy, set_flow; cbn;
      repeat match goal with
      | |- context [if ?b then _ else _] => destruct b
      | |- context [match ?b with _ => _ end] => destruct b
      end; congruence.
  - destruct k, v as [[|]|]; cbn; try discriminate; unfold set_fractions, set_flows; cbn;
      repeat match goal with
      | |- context [if ?b then _ else _] => destruct b
      | |- context [match ?b with _ => _ end] => destruct b
      end; congruence.
Qed.

(* ---- a successful assignment stores the value; assigning None removes exactly that specification ---- *)
Theorem C29_assign_stores k v s s' : assign k (Some v) s = Done s' -> sc s' k = Some v.
Proof.
  destruct k; unfold assign, set_state_a, set_state_b, set_energy, set_flow; cbn;
      repeat match goal with
      | |- context [if ?b then _ else _] => destruct b
      | |- context [match ?b with _ => _ end] => destruct b
      end; intros H; inversion H; reflexivity.
Qed.
Theorem C29_assign_list_stores k v s s' : v <> [] -> assign_list k (Some v) s = Done s' -> ls s' k = Some v.
Proof.
  intros N. destruct v; [congruence|].
  destruct k; unfold assign_list, set_fractions, set_flows; cbn;
      repeat match goal with
      | |- context [if ?b then _ else _] => destruct b
      | |- context [match ?b with _ => _ end] => destruct b
      end; intros H; inversion H; reflexivity.
Qed.
Theorem C29_assign_None k s : exists s', assign k None s = Done s' /\ sc s' k = None /\
  (forall j, j <> k -> sc s' j = sc s j) /\ ls s' = ls s.
Proof.
  exists (put s k None). split; [destruct k; reflexivity|]. simpl.
  split; [destruct (sf_eq_dec k k); congruence|]. split; auto. intros j D. destruct (sf_eq_dec j k); congruence.
Qed.
Theorem C29_assign_list_None k s : exists s', assign_list k None s = Done s' /\ ls s' k = None /\
  (forall j, j <> k -> ls s' j = ls s j) /\ sc s' = sc s.
Proof.
  exists (putl s k None). split; [destruct k; reflexivity|]. simpl.
  split; [destruct (lf_eq_dec k k); congruence|]. split; auto. intros j D. destruct (lf_eq_dec j k); congruence.
Qed.

(* ---- what each statement can make stored ---- *)
Ltac cases := repeat match goal with
  | |- context [if ?b then _ else _] => destruct b eqn:?; cbn [after exec]
  | |- context [match ?b with _ => _ end] => destruct b eqn:?; cbn [after exec]
  end.

Lemma multi_exec c s : multi (after (exec c s)) = multi s.
Proof.
  destruct c as [k v|k v| | |]; cbn [exec after];
    unfold clear_composition_spec, clear_state_specs, clear_flow_spec; rewrite ?multi_clear, ?multi_clearl; auto.
  - destruct k, v; cbn [assign]; unfold set_state_a, set_state_b, set_energy, set_flow; cases;
      cbn [put multi after]; rewrite ?multi_clear, ?multi_clearl; auto.
  - destruct k; cbn [assign_list]; unfold set_fractions, set_flows; cases;
      cbn [putl multi after]; rewrite ?multi_clear, ?multi_clearl; auto.
Qed.
Lemma multi_run cs : forall s, multi (run cs s) = multi s.
Proof. induction cs as [|c cs IH]; intros s; auto. change (run (c :: cs) s) with (run cs (after (exec c s))). now rewrite IH, multi_exec. Qed.

(* a statement stores at most its own specification *)
Definition target (c : stmt) : option key :=
  match c with Set_ k (Some _) => Some (KS k) | SetList k (Some _) => Some (KL k) | _ => None end.
Lemma exec_stores c s k : stored (after (exec c s)) k = true -> stored s k = true \/ target c = Some k.
Proof.
  destruct c as [j v|j v| | |]; cbn [exec after target].
  - destruct v as [v|].
    + destruct (key_eq_dec k (KS j)) as [->|D]; auto.
      destruct j; cbn [assign]; unfold set_state_a, set_state_b, set_energy, set_flow; cases; cbn [after];
        try tauto; keys; try tauto; try discriminate.
    + destruct (C29_assign_None j s) as (s' & -> & A & B & C). cbn [after]. intros H. left.
      destruct k as [k|k]; simpl in *; [|congruence].
      destruct (sf_eq_dec k j) as [->|D]; [rewrite A in H; discriminate | rewrite <- B; auto].
  - destruct v as [v|].
    + destruct (key_eq_dec k (KL j)) as [->|D]; auto.
      destruct j; cbn [assign_list]; unfold set_fractions, set_flows; cases; cbn [after];
        try tauto; keys; try tauto; try discriminate.
    + destruct (C29_assign_list_None j s) as (s' & -> & A & B & C). cbn [after]. intros H. left.
      destruct k as [k|k]; simpl in *; [congruence|].
      destruct (lf_eq_dec k j) as [->|D]; [rewrite A in H; discriminate | rewrite <- B; auto].
  - unfold clear_composition_spec. keys; try discriminate; auto.
  - unfold clear_state_specs. keys; try discriminate; auto.
  - unfold clear_flow_spec. keys; try discriminate; auto.
Qed.

(* ---- composition: at most one, whatever the history ---- *)
Lemma exec_composition c s : multi s = false -> (number composition_names s <= 1)%nat ->
  (number composition_names (after (exec c s)) <= 1)%nat.
Proof.
  intros M H.
  assert (mono : (forall k, In k composition_names -> target c <> Some k) ->
    (number composition_names (after (exec c s)) <= 1)%nat).
  { intros T. eapply Nat.le_trans; [|exact H]. apply number_mono. intros k I E.
    destruct (exec_stores c s k E) as [|T']; auto. elim (T k I T'). }
  destruct c as [j v|j [v|]| | |]; try (apply mono; intros k I T; simpl in T; discriminate).
  - apply mono. intros k I T. simpl in T. destruct v; inversion T; subst.
    unfold composition_names in I. apply in_map_iff in I. destruct I as (x & Q & _). discriminate.
  - assert (one : forall s', (forall k, In k composition_names -> stored s' k = true -> k = KL j) ->
      (number composition_names s' <= 1)%nat) by (intros; eapply number_one; eauto using nd_comp).
    cbn [exec]. destruct j; cbn [assign_list]; unfold set_fractions, set_flows; rewrite M; cases; cbn [after];
      try exact H; apply one; intros k I; keys; try discriminate; auto; exfalso;
      unfold composition_names in I; apply in_map_iff in I; destruct I as (x & <- & I); destruct x; simpl in *; intuition congruence.
Qed.

Lemma fold_reachable (P : args -> Prop) cs : (forall c s, P s -> P (after (exec c s))) -> forall s, P s -> P (run cs s).
Proof.
  intros H. induction cs as [|c cs IH]; intros s Hs; auto.
  change (run (c :: cs) s) with (run cs (after (exec c s))). auto.
Qed.


(* reconcile_flows with at most one composition list stores nothing new *)
Lemma reconcile_stored solve MWs s s' : (number composition_names s <= 1)%nat ->
  reconcile_flows solve MWs s = Some s' -> (forall k, stored s' k = stored s k) /\ multi s' = multi s.
Proof.
  intros N. unfold reconcile_flows. destruct ((_ || _)%bool); [discriminate|].
  set (s1 := match sc s f_n with Some n => match ls s f_ns with Some ns => _ | None => _ end | None => _ end).
  assert (H1 : forall t, s1 = Some t -> (forall k, stored t k = stored s k) /\ multi t = multi s).
  { unfold s1. intros t. destruct (sc s f_n); [|intros E; inversion E; subst; auto].
    destruct (ls s f_ns) eqn:L; [|intros E; inversion E; subst; auto].
    destruct (reconcile_total _ _ _); cbn [option_map]; [|discriminate]. intros E; inversion E; subst. split; auto.
    intros k. rewrite stored_putl. destruct (key_eq_dec k (KL f_ns)) as [->|]; auto. simpl. now rewrite L. }
  destruct s1 as [t1|]; [|discriminate]. destruct (H1 t1 eq_refl) as [E1 M1]. clear H1.
  set (s2 := match sc s f_m with Some m => match ls t1 f_ms with Some ns => _ | None => _ end | None => _ end).
  assert (H2 : forall t, s2 = Some t -> (forall k, stored t k = stored s k) /\ multi t = multi s).
  { unfold s2. intros t. destruct (sc s f_m); [|intros E; inversion E; subst; auto].
    destruct (ls t1 f_ms) eqn:L; [|intros E; inversion E; subst; auto].
    destruct (reconcile_total _ _ _); cbn [option_map]; [|discriminate]. intros E; inversion E; subst. split; auto.
    intros k. rewrite stored_putl. destruct (key_eq_dec k (KL f_ms)) as [->|]; auto. rewrite <- E1. simpl. now rewrite L. }
  destruct s2 as [t2|]; [|discriminate]. destruct (H2 t2 eq_refl) as [E2 M2]. clear H2 E1 M1 t1.
  assert (two : forall a b, In a composition_names -> In b composition_names -> a <> b -> stored t2 a = true -> stored t2 b = true -> False).
  { intros a b Ia Ib D A B. rewrite E2 in A, B. pose proof (number_two _ _ _ _ Ia Ib D A B). lia. }
  destruct (ls t2 f_ns) as [ns|] eqn:Lns; destruct (ls t2 f_ms) as [ms|] eqn:Lms.
  { exfalso. apply (two (KL f_ns) (KL f_ms)); simpl; try tauto; try congruence; try (rewrite ?Lns, ?Lms; reflexivity). }
  all: cbn [isSome andb orb]; rewrite ?Lns, ?Lms; cbn [isSome andb orb]; rewrite ?orb_false_r, ?orb_true_r, ?andb_true_r, ?andb_false_r, ?andb_true_l.
  - destruct (isSome (ls t2 f_ws)) eqn:W; [|intros E; inversion E; subst; auto].
    exfalso. apply (two (KL f_ns) (KL f_ws)); simpl; try tauto; try congruence; try (rewrite ?Lns; reflexivity).
  - destruct (isSome (ls t2 f_zs)) eqn:Z; [|intros E; inversion E; subst; auto].
    exfalso. apply (two (KL f_ms) (KL f_zs)); simpl; try tauto; try congruence; try (rewrite ?Lms; reflexivity).
  - destruct (isSome (ls t2 f_zs)) eqn:Z; [|intros E; inversion E; subst; auto].
    destruct (isSome (ls t2 f_ws)) eqn:W; [|intros E; inversion E; subst; auto].
    exfalso. apply (two (KL f_zs) (KL f_ws)); simpl; try tauto; try congruence.
Qed.

Lemma construct_inv solve MWs kw s0 : multi kw = false -> construct solve MWs kw = Some s0 ->
  (number composition_names kw <= 1)%nat /\ multi s0 = false /\
  (forall k, k <> KS f_H_reactive -> stored s0 k = stored kw k) /\
  stored s0 (KS f_H_reactive) = stored kw (KS f_energy_reactive) /\ (number state_names kw <= 2)%nat.
Proof.
  intros M H. unfold construct in H.
  set (cc := count_list kw [f_zs; f_ws; f_Vfls; f_Vfgs; f_ns; f_ms; f_Qls; f_Qgs]) in H.
  assert (CC : cc = number composition_names kw) by (unfold cc, count_list, composition_names; now rewrite number_mapl).
  set (st := count_sc kw [f_T; f_P; f_V; f_rho; f_rho_mass; f_VF; f_H_mass; f_H; f_S_mass; f_S; f_U_mass; f_U; f_G_mass; f_G;
    f_A_mass; f_A; f_energy; f_energy_reactive; f_H_reactive]) in H.
  assert (ST : st = number state_names kw).
  { unfold st, count_sc, state_names. rewrite number_map. apply len_perm; [nodup | nodup |].
    intros k; destruct k; simpl; intuition congruence. }
  match type of H with match ?r with _ => _ end = _ => destruct r as [s1|] eqn:R1; [|discriminate] end.
  rewrite M in H. cbn [negb] in H. rewrite andb_true_r in H.
  destruct (Nat.ltb 1 cc) eqn:L1; [discriminate|]. apply Nat.ltb_ge in L1.
  destruct (Nat.ltb 2 st) eqn:L2; [discriminate|]. apply Nat.ltb_ge in L2. inversion H; subst s1. clear H.
  assert (N : (number composition_names (put kw f_H_reactive (sc kw f_energy_reactive)) <= 1)%nat).
  { eapply Nat.le_trans; [apply (number_mono _ kw)|lia]. intros k I. rewrite stored_put. destruct (key_eq_dec k (KS f_H_reactive)); auto.
    subst. simpl in I. intuition congruence. }
  assert (Q : (forall k, stored s0 k = stored (put kw f_H_reactive (sc kw f_energy_reactive)) k) /\ multi s0 = false).
  { destruct (_ || _)%bool in R1.
    - apply reconcile_stored in R1; auto. rewrite <- M. exact R1.
    - inversion R1. auto. }
  destruct Q as [Q1 Q2]. splits; try lia; auto.
  - intros k D. rewrite Q1, stored_put. destruct (key_eq_dec k (KS f_H_reactive)); congruence.
  - rewrite Q1, stored_put. destruct (key_eq_dec _ _) as [|D]; [reflexivity | congruence].
Qed.

(* Every object built without multiple_composition_basis stores at most one composition specification after any
   history of assignments, deletions and clears, including histories in which some assignments raised. *)
Theorem C29_composition_count kw s : multi kw = false -> reachable kw s -> (number composition_names s <= 1)%nat.
Proof.
  intros M (solve & MWs & s0 & cs & K & ->). destruct (construct_inv _ _ _ _ M K) as (N & M0 & E & _ & _).
  apply (fold_reachable (fun s => multi s = false /\ (number composition_names s <= 1)%nat)).
  - intros c s [A B]. split; [now rewrite multi_exec | now apply exec_composition].
  - split; auto. eapply Nat.le_trans; [|exact N]. apply number_mono. intros k I. rewrite E; auto.
    intros ->. simpl in I. intuition congruence.
Qed.

(* assigning fractions raises exactly when another kind of composition is stored; a list of flows replaces whatever
   composition and flow is stored and never raises *)
Theorem C29_composition_raises kw s k l : multi kw = false -> reachable kw s ->
  ((exists s', assign_list k (Some l) s = Raised s') <->
   In k [f_zs; f_ws; f_Vfls; f_Vfgs] /\ exists j, j <> k /\ ls s j <> None).
Proof.
  intros M R0. pose proof (C29_composition_count kw s M R0) as N.
  assert (Ms : multi s = false).
  { destruct R0 as (solve & MWs & s0 & cs & K & ->). destruct (construct_inv _ _ _ _ M K) as (_ & M0 & _). now rewrite multi_run. }
  assert (st : forall j, ls s j <> None <-> stored s (KL j) = true) by (intros j; simpl; destruct (ls s j); simpl; intuition congruence).
  assert (fr : (exists s', set_fractions k (Some l) s = Raised s') <-> exists j, j <> k /\ ls s j <> None).
  { unfold set_fractions. rewrite Ms. destruct (C29_composition_spec s) as [P1 P2].
    destruct (composition_spec s) as [j|] eqn:E.
    - specialize (P1 j eq_refl). destruct (lf_eq_dec j k) as [->|D].
      + split; [intros (? & Q); discriminate|]. intros (j & D & S). exfalso.
        assert (2 <= number composition_names s)%nat; [|lia].
        apply (number_two _ s (KL k) (KL j)); [destruct k; simpl; tauto | destruct j; simpl; tauto | congruence | now apply st | now apply st].
      + split; [intros _; eauto | eauto].
    - split; [intros (? & Q); discriminate|]. intros (j & D & S). exfalso. apply st in S.
      pose proof (proj1 P2 eq_refl) as Z. rewrite number_0 in Z. rewrite Z in S; [discriminate | destruct j; simpl; tauto]. }
  destruct k; cbn [assign_list]; try (rewrite fr; simpl; tauto);
    (split; [intros (? & Q); unfold set_flows in Q; rewrite Ms in Q; discriminate | simpl; intuition congruence]).
Qed.

(* ---- flow: at most one, if the constructor was given at most one ---- *)
Lemma exec_flow c s : multi s = false -> (number flow_names s <= 1)%nat -> (number flow_names (after (exec c s)) <= 1)%nat.
Proof.
  intros M H.
  assert (mono : (forall k, In k flow_names -> target c <> Some k) -> (number flow_names (after (exec c s)) <= 1)%nat).
  { intros T. eapply Nat.le_trans; [|exact H]. apply number_mono. intros k I E.
    destruct (exec_stores c s k E) as [|T']; auto. elim (T k I T'). }
  assert (one : forall j s', (forall k, In k flow_names -> stored s' k = true -> k = j) ->
      (number flow_names s' <= 1)%nat) by (intros; eapply number_one; eauto using nd_flow).
  destruct c as [j [v|]|j [v|]| | |]; try (apply mono; intros k I T; simpl in T; discriminate).
  - destruct j; try (apply mono; intros k I T; simpl in T; inversion T; subst; simpl in I; intuition congruence);
    cbn [exec assign]; unfold set_flow; cases; cbn [after]; try exact H;
      (eapply one; intros kk I; keys; [intros _; eassumption | intros; discriminate | intros; discriminate | ..]; exfalso;
       simpl in *; intuition congruence).
  - destruct j; try (apply mono; intros k I T; simpl in T; inversion T; subst; simpl in I; intuition congruence);
    cbn [exec assign_list]; unfold set_flows; rewrite M; cases; cbn [after];
      (eapply one; intros kk I; keys; [intros _; eassumption | intros; discriminate | intros; discriminate | ..]; exfalso;
       simpl in *; intuition congruence).
Qed.

Theorem C29_flow_count kw s : multi kw = false -> (number flow_names kw <= 1)%nat -> reachable kw s ->
  (number flow_names s <= 1)%nat.
Proof.
  intros M F (solve & MWs & s0 & cs & K & ->). destruct (construct_inv _ _ _ _ M K) as (N & M0 & E & _ & _).
  apply (fold_reachable (fun s => multi s = false /\ (number flow_names s <= 1)%nat)).
  - intros c s [A B]. split; [now rewrite multi_exec | now apply exec_flow].
  - split; auto. eapply Nat.le_trans; [|exact F]. apply number_mono. intros k I. rewrite E; auto.
    intros ->. simpl in I. intuition congruence.
Qed.

(* a scalar flow is refused exactly when a different flow is stored *)
Theorem C29_flow_raises kw s k v : multi kw = false -> (number flow_names kw <= 1)%nat -> reachable kw s ->
  In k [f_n; f_m; f_Q; f_Ql; f_Qg] ->
  ((exists s', assign k (Some v) s = Raised s') <-> exists j, In j flow_names /\ j <> KS k /\ stored s j = true).
Proof.
  intros M F R0 I. pose proof (C29_flow_count kw s M F R0) as N.
  assert (A : assign k (Some v) s = set_flow k (Some v) s) by (simpl in I; repeat (destruct I as [<-|I]; [reflexivity|]); destruct I).
  rewrite A. unfold set_flow. destruct (C29_flow_spec s) as [P1 P2].
  assert (Ik : In (KS k) flow_names) by (simpl in *; intuition (subst; auto)).
  destruct (flow_spec s) as [j|] eqn:E.
  - destruct (P1 j eq_refl) as [S J]. destruct (key_eq_dec j (KS k)) as [->|D].
    + destruct (sf_eq_dec k k) as [_|]; [|congruence]. split; [intros (? & Q); discriminate|].
      intros (i & Ii & D & Si). exfalso. pose proof (number_two _ s _ _ Ii Ik D Si S). lia.
    + split; [intros _; eauto|]. intros _. destruct j as [j|j]; [destruct (sf_eq_dec j k); [congruence|]|]; eauto.
  - split; [intros (? & Q); discriminate|]. intros (j & J & D & S). exfalso.
    pose proof (proj1 P2 eq_refl) as Z. rewrite number_0 in Z. rewrite Z in S; [discriminate | auto].
Qed.

(* ---- state: at most two, for histories that leave H_reactive alone and give energies with a flow present ---- *)
Definition safe (c : stmt) (s : args) : Prop :=
  match c with
  | Set_ f_H_reactive (Some _) => False
  | Set_ f_energy (Some _) | Set_ f_energy_reactive (Some _) => flow_specified s = true
  | _ => True
  end.
Fixpoint safe_history (cs : list stmt) (s : args) : Prop :=
  match cs with [] => True | c :: cs => safe c s /\ safe_history cs (after (exec c s)) end.

Lemma exec_state c s : safe c s -> sc s f_H_reactive = None -> (number state_names s <= 2)%nat ->
  sc (after (exec c s)) f_H_reactive = None /\ (number state_names (after (exec c s)) <= 2)%nat.
Proof.
  intros Sf HR H.
  assert (S18 : specified_state_vars s = number state_names s) by (rewrite C29_specified_state_vars, HR; simpl; lia).
  assert (S19 : state_specified s = true <-> number state_names s = 2%nat) by apply C29_state_specified.
  split.
  - assert (Q : stored (after (exec c s)) (KS f_H_reactive) = false).
    { destruct (stored (after (exec c s)) (KS f_H_reactive)) eqn:E; auto.
      apply exec_stores in E. destruct E as [E|E]; [simpl in E; rewrite HR in E; discriminate|].
      destruct c as [k v|k v| | |]; simpl in E; try discriminate; [|destruct v; discriminate].
      destruct v; inversion E; subst. simpl in Sf. tauto. }
    simpl in Q. destruct (sc (after (exec c s)) f_H_reactive); [discriminate | reflexivity].
  - assert (mono : (forall k, In k state_names -> target c <> Some k) -> (number state_names (after (exec c s)) <= 2)%nat).
    { intros T. eapply Nat.le_trans; [|exact H]. apply number_mono. intros k I E.
      destruct (exec_stores c s k E) as [|T']; auto. elim (T k I T'). }
    assert (grow : forall k v, (stored s (KS k) = true \/ (number state_names s <= 1)%nat) ->
      (number state_names (put s k v) <= 2)%nat).
    { intros k v [A|A].
      - eapply Nat.le_trans; [|exact H]. apply number_mono. intros j I. rewrite stored_put.
        destruct (key_eq_dec j (KS k)) as [->|]; auto.
      - eapply Nat.le_trans; [apply (number_step _ s _ (KS k) nd_state)|lia]. intros j I D. rewrite stored_put.
        destruct (key_eq_dec j (KS k)); [congruence | auto]. }
    destruct c as [j [v|]|j [v|]| | |]; try (apply mono; intros k I T; simpl in T; discriminate).
    2: { apply mono. intros k I T. simpl in T. inversion T; subst. simpl in I. intuition congruence. }
    assert (two : stored s (KS j) = true \/ number state_names s = 2%nat \/ (number state_names s <= 1)%nat) by lia.
    assert (two' : stored s (KS j) = isSome (sc s j)) by reflexivity.
    destruct j; try (apply mono; intros k I T; simpl in T; inversion T; subst; simpl in I; intuition congruence);
      cbn [exec assign]; unfold set_state_a, set_state_b, set_energy; rewrite ?S18; simpl in Sf; rewrite ?Sf; try contradiction;
      match goal with |- context [if ?b then _ else _] => destruct b eqn:B end; cbn [after]; try exact H;
      apply grow; rewrite two' in *; rewrite ?andb_true_r in B; destruct (isSome (sc s _)); auto; right;
      cbn [negb] in B; rewrite ?andb_true_r, ?andb_true_l, ?Nat.ltb_ge in B; try lia;
      (destruct (Nat.eq_dec (number state_names s) 2) as [Z|]; [apply S19 in Z; congruence | lia]).
Qed.

Theorem C29_state_count solve MWs kw s0 cs : multi kw = false -> construct solve MWs kw = Some s0 ->
  sc kw f_energy_reactive = None -> safe_history cs s0 -> (number state_names (run cs s0) <= 2)%nat.
Proof.
  intros M K E. destruct (construct_inv _ _ _ _ M K) as (_ & _ & E1 & E2 & N).
  assert (H0 : sc s0 f_H_reactive = None).
  { simpl in E2. rewrite E in E2. destruct (sc s0 f_H_reactive); [discriminate | reflexivity]. }
  assert (N0 : (number state_names s0 <= 2)%nat).
  { eapply Nat.le_trans; [|exact N]. apply number_mono. intros k I S. destruct (key_eq_dec k (KS f_H_reactive)) as [->|D].
    - rewrite E2 in S. simpl in S. rewrite E in S. discriminate.
    - rewrite <- E1; auto. }
  clear K E E1 E2. revert s0 H0 N0. induction cs as [|c cs IH]; intros s0 H0 N0 Sf; auto.
  destruct Sf as [Sc Sf]. change (run (c :: cs) s0) with (run cs (after (exec c s0))).
  destruct (exec_state c s0 Sc H0 N0). apply IH; auto.
Qed.

(* on such objects a state variable is refused exactly when it is not stored and two others are *)
Theorem C29_state_raises s k v : sc s f_H_reactive = None -> (number state_names s <= 2)%nat ->
  In (KS k) state_names -> (k = f_energy \/ k = f_energy_reactive -> flow_specified s = true) ->
  ((exists s', assign k (Some v) s = Raised s') <-> sc s k = None /\ number state_names s = 2%nat).
Proof.
  intros HR H I Fl.
  assert (S18 : specified_state_vars s = number state_names s) by (rewrite C29_specified_state_vars, HR; simpl; lia).
  assert (S19 : state_specified s = true <-> number state_names s = 2%nat) by apply C29_state_specified.
  assert (nn : forall k, isSome (sc s k) = false <-> sc s k = None) by (intros j; destruct (sc s j); simpl; intuition congruence).
  destruct k; try (simpl in I; intuition congruence); cbn [assign]; unfold set_state_a, set_state_b, set_energy; rewrite ?S18;
    rewrite ?Fl by tauto; rewrite <- nn; destruct (isSome (sc s _)); cbn [negb andb]; rewrite ?andb_true_r, ?andb_false_r;
    try (split; [intros (? & Q); discriminate | intros (Q & _); discriminate]);
    match goal with |- context [if ?b then _ else _] => destruct b eqn:B end;
    rewrite ?Nat.ltb_lt, ?Nat.ltb_ge in B;
    (split; [intros (s' & Q); inversion Q; subst; split; auto; try lia; try (apply S19; assumption)
            | intros (_ & Z); eauto; try lia; try (apply S19 in Z; congruence)]).
Qed.

(* ---- update ---- *)
(* update is the same assignments one by one; if one raises, the earlier ones stay *)
Theorem C29_update cs s : exists done rest,
  cs = done ++ rest /\ after (update cs s) = run done s /\
  ((rest = [] /\ update cs s = Done (run cs s)) \/ (exists s', exec (hd ClearFlow rest) (run done s) = Raised s')).
Proof.
  revert s. induction cs as [|c cs IH]; intros s.
  - exists [], []. simpl. auto.
  - simpl. destruct (exec c s) as [s'|s'] eqn:E.
    + destruct (IH s') as (d & r & -> & A & B). exists (c :: d), r. split; auto.
      change (run (c :: d) s) with (run d (after (exec c s))).
      change (run (c :: d ++ r) s) with (run (d ++ r) (after (exec c s))). rewrite E. cbn [after]. auto.
    + exists [], (c :: cs). simpl. rewrite E. split; auto. split; [apply C29_exception_changes_nothing in E; auto|]. right; eauto.
Qed.

Global Transparent clear clearl.
Transparent state_specified specified_state_vars flow_specified flow_spec composition_spec.

(* ---- copy ---- *)
(* copying an object with one composition, one flow and two state specifications gives the same specifications,
   except that H_reactive takes the value of energy_reactive *)
Theorem C29_copy solve MWs s : multi s = false -> (number composition_names s <= 1)%nat -> (number flow_names s <= 1)%nat ->
  (number state_names s <= 2)%nat -> copy solve MWs s = Some (put s f_H_reactive (sc s f_energy_reactive)).
Proof.
  intros M C F S. unfold copy, construct.
  replace (count_list s [f_zs; f_ws; f_Vfls; f_Vfgs; f_ns; f_ms; f_Qls; f_Qgs]) with (number composition_names s)
    by (unfold composition_names; now rewrite number_mapl).
  replace (count_list s [f_ns; f_ms; f_Qls; f_Qgs] + count_sc s [f_n; f_m; f_Q; f_Ql; f_Qg])%nat with (number flow_names s).
  2: { change flow_names with (map KL [f_ns; f_ms; f_Qls; f_Qgs] ++ map KS [f_n; f_m; f_Q; f_Ql; f_Qg]).
       unfold number. rewrite filter_app, app_length.
       pose proof (number_mapl [f_ns; f_ms; f_Qls; f_Qgs] s) as A. pose proof (number_map [f_n; f_m; f_Q; f_Ql; f_Qg] s) as B.
       unfold number in A, B. unfold count_list, count_sc. rewrite <- A, <- B. reflexivity. }
  match goal with |- context [Nat.ltb 2 (count_sc s ?l)] => replace (count_sc s l) with (number state_names s) end.
  2: { unfold count_sc, state_names. rewrite number_map. apply len_perm; [nodup | nodup |].
       intros k; destruct k; simpl; intuition congruence. }
  replace (Nat.ltb 1 (number flow_names s)) with false by (symmetry; apply Nat.ltb_ge; lia).
  replace (Nat.ltb 1 (number composition_names s)) with false by (symmetry; apply Nat.ltb_ge; lia).
  replace (Nat.ltb 2 (number state_names s)) with false by (symmetry; apply Nat.ltb_ge; lia). reflexivity.
Qed.

(* ---- clears ---- *)
Theorem C29_clear_composition s : number composition_names (clear_composition_spec s) = 0%nat /\ sc (clear_composition_spec s) = sc s.
Proof. split; reflexivity. Qed.
Theorem C29_clear_flow s : number flow_names (clear_flow_spec s) = 0%nat /\
  (forall k, In (KS k) state_names -> sc (clear_flow_spec s) k = sc s k).
Proof. split; [reflexivity|]. intros k I. destruct k; try reflexivity; simpl in I; intuition congruence. Qed.
(* every state variable but H_reactive is removed *)
Theorem C29_clear_state s k : In (KS k) state_names ->
  sc (clear_state_specs s) k = if sf_eq_dec k f_H_reactive then sc s k else None.
Proof. intros I. destruct k; try reflexivity; simpl in I; intuition congruence. Qed.

(* ---- reconciliation at construction: one unknown component flow is found from the total ---- *)
Theorem C29_reconcile_total tol tot l l' : length (filter (fun o => negb (isSome o)) l) = 1%nat ->
  reconcile_total tol tot l = Some l' ->
  complete l' = true /\ lsum (vals l') = tot /\ length l' = length l /\
  (forall i x, nth_error l i = Some (Some x) -> nth_error l' i = Some (Some x)).
Proof.
  intros N. unfold reconcile_total. rewrite N. intros E. inversion E; subst; clear E.
  set (c := tot - lsum (vals l)). set (g := fun o : option R => match o with Some x => Some x | None => Some c end).
  splits.
  - unfold complete. rewrite forallb_forall. intros x I. apply in_map_iff in I. destruct I as ([y|] & <- & _); reflexivity.
  - assert (Q : forall c l, lsum (vals (map (fun o : option R => match o with Some x => Some x | None => Some c end) l))
      = lsum (vals l) + INR (length (filter (fun o => negb (isSome o)) l)) * c).
    { clear. intros c. set (g := fun o : option R => match o with Some x => Some x | None => Some c end).
      induction l as [|[x|] l IH].
      - simpl. lra.
      - change (vals (map g (Some x :: l))) with (x :: vals (map g l)). change (vals (Some x :: l)) with (x :: vals l).
        cbn [filter isSome negb]. unfold lsum in *. cbn [fold_right]. lra.
      - change (vals (map g (None :: l))) with (c :: vals (map g l)). change (vals (None :: l)) with (0 :: vals l).
        cbn [filter isSome negb length]. rewrite S_INR. unfold lsum in *. cbn [fold_right]. lra. }
    unfold g. rewrite Q, N. simpl. unfold c. lra.
  - now rewrite map_length.
  - intros i x H. rewrite nth_error_map, H. reflexivity.
Qed.

(* component flows given both as moles and as mass: the mass flows win, and must agree with the mole flows to the tolerance *)
Theorem C29_reconcile_both tol ns ms MWs l : reconcile_ns_ms tol ns ms MWs = Some l -> (length ms <= length ns)%nat ->
  length l = length ns /\ (forall i, nth_error ms i = Some None \/ nth_error ms i = None -> nth_error l i = nth_error ns i) /\
  forall i m, nth_error ms i = Some (Some m) -> exists M, nth_error MWs i = Some M /\ M <> 0 /\ nth_error l i = Some (Some (m * 1000 / M)) /\
    forall n, nth_error ns i = Some (Some n) -> m * 1000 / M <> 0 /\ Rabs (n - m * 1000 / M) <= tol * Rabs (m * 1000 / M).
Proof.
  revert ns MWs l. induction ms as [|mi ms IH]; intros ns MWs l E L; cbn [reconcile_ns_ms] in E.
  - inversion E; subst. splits; auto. intros [|i] m H; discriminate.
  - destruct ns as [|ni ns]; cbn [length] in L; [lia|]. apply le_S_n in L. destruct mi as [m|].
    + destruct MWs as [|M MWs]; [discriminate|]. destruct (Reqb_spec M 0) as [|M0]; [discriminate|].
      assert (C : exists l', reconcile_ns_ms tol ns ms MWs = Some l' /\ l = Some (m * 1000 / M) :: l' /\ forall n, ni = Some n -> m * 1000 / M <> 0 /\ Rabs (n - m * 1000 / M) <= tol * Rabs (m * 1000 / M)).
      { cbv zeta in E. destruct ni as [n|].
        - destruct (Reqb_spec (m * 1000 / M) 0) as [|C0]; [discriminate|]. destruct (Rltb_spec tol (Rabs ((n - m * 1000 / M) / (m * 1000 / M)))) as [|T]; [discriminate|].
          destruct (reconcile_ns_ms tol ns ms MWs) as [l'|]; [|discriminate]. cbn [option_map] in E. inversion E. exists l'. splits; auto. intros n' [= <-]. split; auto.
          apply Rnot_lt_le in T. unfold Rdiv at 1 in T. rewrite Rabs_mult, Rabs_inv in T. assert (P : 0 < Rabs (m * 1000 / M)) by (apply Rabs_pos_lt; auto).
          apply (Rmult_le_compat_r (Rabs (m * 1000 / M))) in T; [|lra]. rewrite Rmult_assoc, Rinv_l, Rmult_1_r in T by lra. lra.
        - destruct (reconcile_ns_ms tol ns ms MWs) as [l'|]; [|discriminate]. cbn [option_map] in E. inversion E. exists l'. splits; auto. discriminate. }
      destruct C as (l' & E' & -> & C). destruct (IH _ _ _ E' L) as (I1 & I2 & I3). splits.
      * cbn; lia.
      * intros [|i]; cbn [nth_error]; [intros [|]; discriminate|apply I2].
      * intros [|i] m'; cbn [nth_error]; [|apply I3]. intros [= <-]. exists M. splits; auto. intros n [= ->]. auto.
    + destruct (reconcile_ns_ms tol ns ms (tl MWs)) as [l'|] eqn:E'; [|discriminate]. cbn [option_map] in E. inversion E; subst. destruct (IH _ _ _ E' L) as (I1 & I2 & I3). splits.
      * cbn; lia.
      * intros [|i]; cbn [nth_error]; [auto|apply I2].
      * intros [|i] m'; cbn [nth_error]; [discriminate|]. intros H. destruct (I3 i m' H) as (M & K1 & K2). exists M. split; auto. destruct MWs; cbn [tl] in K1; [destruct i; discriminate|exact K1].
Qed.
(* a complete list given with its total, or mass flows with mole flows, is accepted only if they agree to 2e-15 *)
Theorem C29_constructor_tolerance solve MWs s s' : reconcile_flows solve MWs s = Some s' ->
  (forall n l, sc s f_n = Some n -> ls s f_ns = Some l -> complete l = true -> n <> 0 /\ Rabs (lsum (vals l) - n) <= 2 / 10 ^ 15 * Rabs n) /\
  (forall m l, sc s f_m = Some m -> ls s f_ms = Some l -> complete l = true -> m <> 0 /\ Rabs (lsum (vals l) - m) <= 2 / 10 ^ 15 * Rabs m) /\
  (forall W ns ms i n m M, MWs = Some W -> sc s f_n = None -> sc s f_m = None -> ls s f_ns = Some ns -> ls s f_ms = Some ms -> length ms = length ns ->
     nth_error ns i = Some (Some n) -> nth_error ms i = Some (Some m) -> nth_error W i = Some M -> Rabs (n - m * 1000 / M) <= 2 / 10 ^ 15 * Rabs (m * 1000 / M)).
Proof.
  assert (RT : forall tol tot l l', complete l = true -> reconcile_total tol tot l = Some l' -> tot <> 0 /\ Rabs (lsum (vals l) - tot) <= tol * Rabs tot).
  { intros tol tot l l' C. unfold reconcile_total. replace (length _) with O; [|symmetry; apply length_zero_iff_nil; clear - C; induction l as [|[x|] l IH]; cbn in *; auto; discriminate].
    destruct (Reqb_spec tot 0) as [|T0]; [discriminate|]. destruct (Rltb_spec tol (Rabs ((lsum (vals l) - tot) / tot))) as [|T]; [discriminate|]. intros _. split; auto.
    apply Rnot_lt_le in T. unfold Rdiv in T. rewrite Rabs_mult, Rabs_inv in T. assert (P : 0 < Rabs tot) by (apply Rabs_pos_lt; auto).
    apply (Rmult_le_compat_r (Rabs tot)) in T; [|lra]. rewrite Rmult_assoc, Rinv_l, Rmult_1_r in T by lra. exact T. }
  unfold reconcile_flows. generalize (2 / 10 ^ 15). intros tol. destruct ((_ || _)%bool) eqn:OV; [discriminate|]. intros E. splits.
  - intros n l En El C. rewrite En, El in E. destruct (reconcile_total tol n l) eqn:R; [|discriminate]. eapply RT; eauto.
  - intros m l Em El C. rewrite Em in *. destruct (sc s f_n); cbn in OV; [discriminate|]. rewrite El in E. destruct (reconcile_total tol m l) eqn:R; [|destruct (ls s f_ns); discriminate]. eapply RT; eauto.
  - intros W ns ms i n m M -> En Em Ens Ems L H1 H2 H3. rewrite En, Em, Ens, Ems in E. destruct (reconcile_ns_ms tol ns ms W) eqn:R; [|discriminate].
    destruct (C29_reconcile_both _ _ _ _ _ R ltac:(lia)) as (_ & _ & K). destruct (K i m H2) as (M' & K1 & _ & _ & K2). replace M with M' by congruence. now apply K2.
Qed.

(* ---- where the advertised accounting fails ---- *)
Definition empty : args := mkargs (fun _ => None) (fun _ => None) false.
Definition no_solve : option vec -> vec -> vec -> list R -> option vec := fun _ _ _ _ => None.

(* the constructor accepts two flows: n with Ql, or n with a consistent ns *)
Theorem C29_constructor_flow_refuted :
  exists kw s, multi kw = false /\ construct no_solve None kw = Some s /\ number flow_names s = 2%nat.
Proof.
  exists (putl (put (put empty f_n (Some 1)) f_Ql (Some 1)) f_zs (Some [Some 1])). eexists.
  split; [reflexivity|]. split; [reflexivity|]. reflexivity.
Qed.
Theorem C29_constructor_n_ns_refuted :
  exists kw s, multi kw = false /\ construct no_solve None kw = Some s /\ number flow_names s = 2%nat /\
    ls s f_ns = Some [Some 1; Some (3 - (1 + (0 + 0)))].
Proof.
  exists (putl (put empty f_n (Some 3)) f_ns (Some [Some 1; None])). eexists.
  split; [reflexivity|]. split; [reflexivity|]. split; reflexivity.
Qed.
(* energy is accepted as a third state variable while no flow is stored; from then on the count is never 2 and the
   ordinary setters accept everything: thirteen state variables at once *)
Theorem C29_state_refuted : exists cs, number state_names (run cs empty) = 13%nat /\
  state_specified (run cs empty) = false /\ multi empty = false /\ construct no_solve None empty = Some (put empty f_H_reactive None).
Proof.
  exists (map (fun k => Set_ k (Some 1)) [f_T; f_P; f_energy; f_V; f_rho; f_rho_mass; f_VF; f_H; f_U; f_A; f_G; f_H_reactive; f_energy_reactive]).
  splits; reflexivity.
Qed.
(* the constructor drops the H_reactive argument and counts energy_reactive twice: T with energy_reactive is not
   "specified", cannot be copied, and clear_state_specs does not empty it *)
Theorem C29_H_reactive_refuted :
  (exists kw s, sc kw f_H_reactive = Some 5 /\ construct no_solve None kw = Some s /\ sc s f_H_reactive = None) /\
  (exists kw s, number state_names kw = 2%nat /\ construct no_solve None kw = Some s /\ state_specified s = false /\
     specified_state_vars s = 2%nat /\ copy no_solve None s = None /\ number state_names (clear_state_specs s) = 1%nat).
Proof.
  split.
  - exists (put empty f_H_reactive (Some 5)). eexists. splits; reflexivity.
  - exists (put (put empty f_T (Some 300)) f_energy_reactive (Some 5)). eexists. splits; reflexivity.
Qed.
(* with H_reactive stored, a mass-based variable is accepted as a third *)
Theorem C29_mass_refuted : exists cs, number state_names (run cs empty) = 3%nat /\ ~ In ClearState cs /\
  (forall v, ~ In (Set_ f_energy v) cs /\ ~ In (Set_ f_energy_reactive v) cs).
Proof.
  exists [Set_ f_H_reactive (Some 1); Set_ f_T (Some 300); Set_ f_H_mass (Some 2)].
  split; [reflexivity|]. split; [|intros v; split]; simpl; intuition discriminate.
Qed.
(* a failing update is not undone *)
Theorem C29_update_refuted : exists cs s', update cs empty = Raised s' /\ s' <> empty /\ sc s' f_T = Some 300.
Proof.
  exists [Set_ f_T (Some 300); Set_ f_P (Some 100000); Set_ f_H (Some 1)]. eexists. split; [reflexivity|].
  split; [|reflexivity]. intros E. apply (f_equal (fun s => sc s f_T)) in E. simpl in E. discriminate.
Qed.

(* ---- concrete case ---- *)
(* StreamArgs(zs=[.5,.5], T=300, n=2) then P, then energy (refused), then ns: the hypotheses of the counting theorems hold *)
Example C29_hypotheses_met :
  let kw := putl (put (put empty f_T (Some 300)) f_n (Some 2)) f_zs (Some [Some (1/2); Some (1/2)]) in
  let cs := [Set_ f_P (Some 100000); Set_ f_energy (Some 7); SetList f_ns (Some [Some 1; Some 2])] in
  exists s0, construct no_solve None kw = Some s0 /\ multi kw = false /\ (number flow_names kw <= 1)%nat /\
    safe_history cs s0 /\ reachable kw (run cs s0) /\ exec (Set_ f_energy (Some 7)) (run [Set_ f_P (Some 100000)] s0) = Raised (run [Set_ f_P (Some 100000)] s0)
    /\ number flow_names (run cs s0) = 1%nat /\ ls (run cs s0) f_ns = Some [Some 1; Some 2] /\ ls (run cs s0) f_zs = None.
Proof.
  eexists. splits; try reflexivity; try (cbn; lia); try (cbn; tauto).
  - exists no_solve, None. do 2 eexists. split; reflexivity.
Qed.
