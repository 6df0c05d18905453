(* C32: mole_balance computes flows that conserve every component. *)
From Coq Require Import Reals List Bool Arith Lra Lia.
From Verif Require Import Base BaseFacts Model_stream Model_balance.
Import ListNotations.
Open Scope R_scope.

(* ---- specification: the molar flow of component j a stream specifies, in whatever basis ---- *)
Definition molar_flow (s : stream) (j : nat) : option R :=
  match st s with
  | SNs l => nth j l None
  | SMs l => option_map (fun m => m * 1000 / mw s j) (nth j l None)
  | SQls l => option_map (fun q => q / vl s j) (nth j l None)
  | SQgs l => option_map (fun q => q / vg s) (nth j l None)
  | SFrac (Some z) other =>
      match (match n_spec s with Some n => Some n | None => other end) with
      | Some n => option_map (fun x => n * x) (nth_error z j)
      | None => None
      end
  | SFrac None _ => None
  end.
(* total of the component flows that are known *)
Definition component_total (l : list stream) (j : nat) : R :=
  lsum (map (fun s => match molar_flow s j with Some x => x | None => 0 end) l).
Definition all_known (l : list stream) (j : nat) : Prop := forall s, In s l -> molar_flow s j <> None.
(* every list has one entry per compound; conversion factors are not zero *)
Definition well_formed (c : nat) (s : stream) : Prop :=
  match st s with
  | SNs l | SMs l | SQls l | SQgs l => length l = c
  | SFrac (Some z) _ => length z = c
  | SFrac None _ => True
  end /\ (forall j, (j < c)%nat -> mw s j <> 0 /\ vl s j <> 0) /\ vg s <> 0 /\ (0 < c)%nat.
Definition incomplete (c : nat) (s : stream) : Prop := exists j, (j < c)%nat /\ molar_flow s j = None.

(* ---- lists ---- *)
Lemma lset_length {A} (l : list A) i x : length (lset l i x) = length l.
Proof. revert i; induction l; intros [|i]; simpl; auto. Qed.
Lemma nth_lset {A} (l : list A) i x k d : nth k (lset l i x) d = if (Nat.eqb k i && Nat.ltb i (length l))%bool then x else nth k l d.
Proof.
  revert i k; induction l as [|y l IH]; intros [|i] [|k]; simpl; auto.
  - destruct (Nat.eqb k i); reflexivity.
  - rewrite IH. reflexivity.
Qed.
Lemma lsum_lset {A} (g : A -> R) l i x d : (i < length l)%nat ->
  lsum (map g (lset l i x)) = lsum (map g l) - g (nth i l d) + g x.
Proof.
  revert i; induction l as [|y l IH]; intros [|i] H; simpl in *; try lia; unfold lsum in *; simpl; [lra|].
  rewrite IH by lia. lra.
Qed.
Lemma in_lset {A} (l : list A) i x s d : In s (lset l i x) -> s = x \/ exists k, (k < length l)%nat /\ k <> i /\ s = nth k l d.
Proof.
  revert i; induction l as [|y l IH]; intros [|i] H; simpl in *; try tauto.
  - destruct H as [<-|H]; auto. right. destruct (In_nth l s d H) as (k & K & E). exists (S k). splits; auto; lia.
  - destruct H as [<-|H].
    + right. exists 0%nat. splits; auto; lia.
    + destruct (IH i H) as [->|(k & K & D & E)]; auto. right. exists (S k). splits; auto; lia.
Qed.
Lemma nth_mapi f l : forall k j, f k None = None -> (forall k, f k None = None) -> nth j (mapi f k l) None = f (k + j)%nat (nth j l None).
Proof.
  induction l as [|x l IH]; intros k [|j] H H0; simpl; auto.
  - rewrite Nat.add_0_r; auto.
  - rewrite IH by auto. f_equal. lia.
Qed.
Lemma nth_conv f l j : nth j (conv f l) None = option_map (f j) (nth j l None).
Proof. unfold conv. rewrite nth_mapi by auto. simpl. destruct (nth j l None); reflexivity. Qed.
Lemma mapi_length f l : forall k, length (mapi f k l) = length l.
Proof. induction l; intros; simpl; auto. Qed.
Lemma anysome_nth l j : anysome l = false -> nth j l None = None.
Proof.
  unfold anysome. revert j; induction l as [|x l IH]; intros [|j] H; simpl in *; auto; apply orb_false_iff in H; destruct H as [H1 H2]; auto.
  destruct x; [discriminate | reflexivity].
Qed.
Lemma complete_nth l : complete l = true <-> forall j, (j < length l)%nat -> nth j l None <> None.
Proof.
  unfold complete. rewrite forallb_forall. split.
  - intros H j J. specialize (H (nth j l None) (nth_In _ _ J)). destruct (nth j l None); [discriminate | discriminate].
  - intros H x I. destruct (In_nth l x None I) as (j & J & E). specialize (H j J). rewrite E in H. destruct x; [reflexivity | congruence].
Qed.
Lemma complete_false l : complete l = false <-> exists j, (j < length l)%nat /\ nth j l None = None.
Proof.
  split.
  - unfold complete. induction l as [|x l IH]; simpl; [discriminate|]. destruct x; simpl.
    + intros H. destruct (IH H) as (j & J & E). exists (S j). split; [lia | exact E].
    + intros _. exists 0%nat. split; [lia | reflexivity].
  - intros (j & J & E). destruct (complete l) eqn:C; auto. rewrite complete_nth in C. elim (C j J E).
Qed.

Section Positions.
Context {A : Type} (f : A -> bool) (d : A).
Lemma positions_in l i : In i (positions f d l) <-> (i < length l)%nat /\ f (nth i l d) = true.
Proof. unfold positions. rewrite filter_In, in_seq. intuition lia. Qed.
Lemma positions_nil l : positions f d l = [] <-> forall i, (i < length l)%nat -> f (nth i l d) = false.
Proof.
  split.
  - intros E i I. destruct (f (nth i l d)) eqn:F; auto. assert (J : In i (positions f d l)) by (apply positions_in; auto). rewrite E in J. destruct J.
  - intros H. destruct (positions f d l) as [|i p] eqn:E; auto. assert (J : In i (positions f d l)) by (rewrite E; simpl; auto).
    apply positions_in in J. destruct J as [J1 J2]. rewrite H in J2; [discriminate | auto].
Qed.
Lemma positions_one l i : positions f d l = [i] <-> (i < length l)%nat /\ f (nth i l d) = true /\
  forall k, (k < length l)%nat -> k <> i -> f (nth k l d) = false.
Proof.
  assert (N : NoDup (positions f d l)) by (apply NoDup_filter, seq_NoDup). split.
  - intros E. assert (J : In i (positions f d l)) by (rewrite E; simpl; auto). apply positions_in in J. destruct J as [J1 J2].
    splits; auto. intros k K D. destruct (f (nth k l d)) eqn:F; auto. exfalso. apply D.
    assert (Q : In k (positions f d l)) by (apply positions_in; auto). rewrite E in Q. simpl in Q. intuition.
  - intros (I & F & O). destruct (positions f d l) as [|a p] eqn:E.
    { assert (Q : In i (positions f d l)) by (apply positions_in; auto). rewrite E in Q. destruct Q. }
    assert (all : forall k, In k (a :: p) -> k = i).
    { intros k K. rewrite <- E in K. apply positions_in in K. destruct K as [K1 K2]. destruct (Nat.eq_dec k i); auto. rewrite O in K2; auto. discriminate. }
    rewrite (all a) by (simpl; auto). f_equal. destruct p as [|b p]; auto. exfalso. inversion N; subst. apply H1.
    rewrite (all a), <- (all b); simpl; auto.
Qed.
Lemma positions_cases l : positions f d l = [] \/ (exists i, positions f d l = [i]) \/
  (exists i k, (i < length l)%nat /\ (k < length l)%nat /\ i <> k /\ f (nth i l d) = true /\ f (nth k l d) = true).
Proof.
  assert (N : NoDup (positions f d l)) by (apply NoDup_filter, seq_NoDup).
  destruct (positions f d l) as [|a [|b p]] eqn:E; eauto. right; right. exists a, b.
  assert (Ia : In a (positions f d l)) by (rewrite E; simpl; auto). assert (Ib : In b (positions f d l)) by (rewrite E; simpl; auto).
  apply positions_in in Ia, Ib. inversion N; subst. simpl in H1. splits; try tauto. intros ->. tauto.
Qed.
End Positions.

(* ---- the model's reading of a stream is the specification's ---- *)
Lemma at_flow s j : at_ true true s j = molar_flow s j.
Proof.
  unfold at_, view, molar_flow. destruct (st s) as [l|l|l|l|[z|] o] eqn:E; cbn [andb]; auto.
  - destruct (anysome l) eqn:A; [apply nth_conv | now rewrite anysome_nth].
  - destruct (complete l); [apply nth_conv|]. destruct (anysome l) eqn:A; [apply nth_conv | now rewrite anysome_nth].
  - destruct (complete l); [apply nth_conv|]. destruct (anysome l) eqn:A; [apply nth_conv | now rewrite anysome_nth].
  - unfold n_of. rewrite E. destruct (n_spec s) as [n|]; [|destruct o as [n|]]; auto;
      clear E; revert j; induction z; intros [|j]; simpl; auto.
Qed.
Lemma unknown_spec c s : well_formed c s -> (unknown true true s = true <-> incomplete c s).
Proof.
  intros (L & _ & _ & C). unfold incomplete.
  assert (W : (exists j, (j < c)%nat /\ molar_flow s j = None) <-> (exists j, (j < c)%nat /\ at_ true true s j = None))
    by (split; intros (j & J & E); exists j; rewrite at_flow in *; auto).
  rewrite W. unfold unknown, at_.
  assert (V : forall l, view true true s = Some l -> length l = c).
  { intros l. unfold view. destruct (st s) as [l0|l0|l0|l0|[z|] o]; cbn [andb]; try discriminate;
      repeat match goal with |- context [if ?b then _ else _] => destruct b end; try discriminate;
      try (let Q := fresh in intros Q; inversion Q; subst; unfold conv; rewrite ?mapi_length; now auto).
    destruct (n_of s); [|discriminate]. intros Q; inversion Q. now rewrite map_length. }
  destruct (view true true s) as [l|] eqn:E.
  - specialize (V l eq_refl). rewrite negb_true_iff, complete_false, V. reflexivity.
  - split; auto. intros _. exists 0%nat. auto.
Qed.
Lemma sum_at_total l j : sum_at true true l j = component_total l j.
Proof. unfold sum_at, component_total. f_equal. apply map_ext. intros s. rewrite at_flow. reflexivity. Qed.
Lemma missing_spec l j i : In i (missing_at true true l j) <-> (i < length l)%nat /\ molar_flow (nth i l dflt) j = None.
Proof.
  unfold missing_at. rewrite positions_in, at_flow. destruct (molar_flow (nth i l dflt) j); simpl; intuition congruence.
Qed.
Lemma missing_nil l j : missing_at true true l j = [] <-> all_known l j.
Proof.
  unfold missing_at. rewrite positions_nil. unfold all_known. split.
  - intros H s I. destruct (In_nth l s dflt I) as (i & J & E). specialize (H i J). rewrite at_flow, E in H. destruct (molar_flow s j); simpl in H; congruence.
  - intros H i I. rewrite at_flow. specialize (H _ (nth_In l dflt I)). destruct (molar_flow _ j); simpl; congruence.
Qed.

Lemma flow_set_ns s l j : molar_flow (set_ns s l) j = nth_error l j.
Proof. unfold molar_flow, set_ns; cbn [st]. revert j; induction l; intros [|j]; simpl; auto. Qed.
Lemma flow_set_component c s j x k : well_formed c s -> (j < c)%nat ->
  (forall z o, st s <> SFrac z o) -> molar_flow (set_component s j x) k = if Nat.eqb k j then Some x else molar_flow s k.
Proof.
  intros (L & P & Pg & _) J F. destruct (P j J) as [Pm Pv]. unfold molar_flow, set_component.
  destruct (st s) as [l|l|l|l|z o] eqn:E; [| | | |elim (F z o); auto]; cbn [st mw vl vg]; rewrite nth_lset;
    replace (Nat.ltb j (length l)) with true by (symmetry; apply Nat.ltb_lt; lia); rewrite andb_true_r;
    destruct (Nat.eqb_spec k j) as [->|]; auto; cbn [option_map]; f_equal; field; auto.
Qed.
Lemma flow_set_component_frac s j x z o : st s = SFrac z o -> set_component s j x = s.
Proof. intros E. unfold set_component. now rewrite E. Qed.

(* ---- one unknown stream ---- *)
(* The unknown outlet is given, for each component, inlets minus the other outlets, minus also what it had itself
   specified when it is not the only outlet; nothing else changes. *)
Theorem C32_single_outlet ins outs c i : (forall s, In s ins -> ~ incomplete c s) ->
  (forall s, In s ins \/ In s outs -> well_formed c s) -> (i < length outs)%nat -> incomplete c (nth i outs dflt) ->
  (forall k, (k < length outs)%nat -> k <> i -> ~ incomplete c (nth k outs dflt)) ->
  exists outs', mole_balance true true ins outs c = (true, (ins, outs')) /\ length outs' = length outs /\
    (forall k, k <> i -> nth k outs' dflt = nth k outs dflt) /\
    forall j, (j < c)%nat -> molar_flow (nth i outs' dflt) j <> None /\
      component_total outs' j = component_total ins j -
        (if Nat.eqb (length outs) 1 then 0 else match molar_flow (nth i outs dflt) j with Some x => x | None => 0 end).
Proof.
  intros KI W I U O.
  assert (P1 : positions (unknown true true) dflt ins = []).
  { apply positions_nil. intros k K. pose proof (nth_In ins dflt K) as Q. destruct (unknown true true (nth k ins dflt)) eqn:E; auto.
    apply (unknown_spec c) in E; auto. elim (KI _ Q E). }
  assert (P2 : positions (unknown true true) dflt outs = [i]).
  { apply positions_one. splits; auto.
    - apply (unknown_spec c); auto. apply W. right. apply nth_In; auto.
    - intros k K D. destruct (unknown true true (nth k outs dflt)) eqn:E; auto. apply (unknown_spec c) in E; [elim (O k K D E)|]. apply W. right. apply nth_In; auto. }
  unfold mole_balance. rewrite P1, P2. eexists. split; [reflexivity|]. split; [apply lset_length|]. split.
  - intros k D. rewrite nth_lset. destruct (Nat.eqb_spec k i); [congruence | reflexivity].
  - intros j J.
    assert (NE : nth_error (close_one true true ins outs c) j = Some (component_total ins j - (if Nat.eqb (length outs) 1 then 0 else component_total outs j))).
    { unfold close_one. rewrite nth_error_map. rewrite (nth_error_nth' _ 0%nat) by (rewrite seq_length; auto).
      rewrite seq_nth by auto. cbn [option_map]. rewrite !sum_at_total. reflexivity. }
    split.
    + rewrite nth_lset, Nat.eqb_refl. replace (Nat.ltb i (length outs)) with true by (symmetry; apply Nat.ltb_lt; auto). simpl.
      rewrite flow_set_ns, NE. discriminate.
    + unfold component_total at 1. rewrite (lsum_lset _ _ _ _ dflt) by auto. rewrite flow_set_ns, NE.
      fold (component_total outs j). destruct (Nat.eqb_spec (length outs) 1) as [L1|L1]; [|lra].
      destruct outs as [|s [|? ?]]; simpl in L1; try discriminate; try lia. assert (i = 0)%nat by (simpl in I; lia). subst i.
      unfold component_total at 1, lsum. simpl. lra.
Qed.
Theorem C32_single_inlet ins outs c i : (forall s, In s outs -> ~ incomplete c s) ->
  (forall s, In s ins \/ In s outs -> well_formed c s) -> (i < length ins)%nat -> incomplete c (nth i ins dflt) ->
  (forall k, (k < length ins)%nat -> k <> i -> ~ incomplete c (nth k ins dflt)) ->
  exists ins', mole_balance true true ins outs c = (true, (ins', outs)) /\ length ins' = length ins /\
    (forall k, k <> i -> nth k ins' dflt = nth k ins dflt) /\
    forall j, (j < c)%nat -> molar_flow (nth i ins' dflt) j <> None /\
      component_total ins' j = component_total outs j -
        (if Nat.eqb (length ins) 1 then 0 else match molar_flow (nth i ins dflt) j with Some x => x | None => 0 end).
Proof.
  intros KI W I U O.
  assert (P1 : positions (unknown true true) dflt outs = []).
  { apply positions_nil. intros k K. pose proof (nth_In outs dflt K) as Q. destruct (unknown true true (nth k outs dflt)) eqn:E; auto.
    apply (unknown_spec c) in E; auto. elim (KI _ Q E). }
  assert (P2 : positions (unknown true true) dflt ins = [i]).
  { apply positions_one. splits; auto.
    - apply (unknown_spec c); auto. apply W. left. apply nth_In; auto.
    - intros k K D. destruct (unknown true true (nth k ins dflt)) eqn:E; auto. apply (unknown_spec c) in E; [elim (O k K D E)|]. apply W. left. apply nth_In; auto. }
  unfold mole_balance. rewrite P1, P2. eexists. split; [reflexivity|]. split; [apply lset_length|]. split.
  - intros k D. rewrite nth_lset. destruct (Nat.eqb_spec k i); [congruence | reflexivity].
  - intros j J.
    assert (NE : nth_error (close_one true true outs ins c) j = Some (component_total outs j - (if Nat.eqb (length ins) 1 then 0 else component_total ins j))).
    { unfold close_one. rewrite nth_error_map. rewrite (nth_error_nth' _ 0%nat) by (rewrite seq_length; auto).
      rewrite seq_nth by auto. cbn [option_map]. rewrite !sum_at_total. reflexivity. }
    split.
    + rewrite nth_lset, Nat.eqb_refl. replace (Nat.ltb i (length ins)) with true by (symmetry; apply Nat.ltb_lt; auto). simpl.
      rewrite flow_set_ns, NE. discriminate.
    + unfold component_total at 1. rewrite (lsum_lset _ _ _ _ dflt) by auto. rewrite flow_set_ns, NE.
      fold (component_total ins j). destruct (Nat.eqb_spec (length ins) 1) as [L1|L1]; [|lra].
      destruct ins as [|s [|? ?]]; simpl in L1; try discriminate; try lia. assert (i = 0)%nat by (simpl in I; lia). subst i.
      unfold component_total at 1, lsum. simpl. lra.
Qed.

(* ---- several unknown streams: component by component ---- *)
(* the state of the loop before component j *)
Section Componentwise.
Variables (ins outs : list stream) (c : nat).
Hypothesis Wi : forall s, In s ins -> well_formed c s.
Hypothesis Wo : forall s, In s outs -> well_formed c s.

Definition same_frame (s s' : stream) : Prop :=
  mw s' = mw s /\ vl s' = vl s /\ vg s' = vg s /\ n_spec s' = n_spec s /\ well_formed c s' /\
  ((exists z o, st s = SFrac z o) -> s' = s) /\ ((forall z o, st s <> SFrac z o) -> forall z o, st s' <> SFrac z o).
Lemma same_frame_refl s : well_formed c s -> same_frame s s.
Proof. unfold same_frame. tauto. Qed.
Lemma same_frame_set s s' j x : (j < c)%nat -> same_frame s s' -> same_frame s (set_component s' j x).
Proof.
  intros J (A & B & C0 & D & W & F & G). unfold same_frame, set_component.
  assert (T : (exists z o, st s = SFrac z o) \/ (forall z o, st s <> SFrac z o)).
  { destruct (st s); eauto; right; congruence. }
  destruct T as [T|T].
  - rewrite (F T) in *. destruct T as (z & o & E). rewrite E. splits; auto. intros K. elim (K z o); auto.
  - pose proof (G T) as K. unfold well_formed in *. destruct (st s') as [l|l|l|l|z o] eqn:E; [| | | |elim (K z o); auto]; cbn [mw vl vg n_spec st]; splits; try tauto; try discriminate;
      try (now rewrite A); try (now rewrite lset_length); try (intros (z & o & Q); elim (T z o Q)).
Qed.

(* what the loop has done to stream i of a side, having treated the components below k: v j is the flow that closes component j *)
Definition done_upto (k : nat) (mine other : list stream) (v : nat -> R) (mine' : list stream) : Prop :=
  length mine' = length mine /\
  forall i, (i < length mine)%nat -> same_frame (nth i mine dflt) (nth i mine' dflt) /\
    ((exists z o, st (nth i mine dflt) = SFrac z o) \/
     forall j, molar_flow (nth i mine' dflt) j =
       if (Nat.ltb j k && match missing_at true true mine j, missing_at true true other j with [m], [] => Nat.eqb m i | _, _ => false end)%bool
       then Some (v j) else molar_flow (nth i mine dflt) j).
Lemma done_start mine other v : (forall s, In s mine -> well_formed c s) -> done_upto 0 mine other v mine.
Proof.
  intros W. split; auto. intros i I. split; [apply same_frame_refl, W, nth_In; auto|]. right. reflexivity.
Qed.
Lemma done_keep k mine other v mine' : done_upto k mine other v mine' ->
  (forall m, ~ (missing_at true true mine k = [m] /\ missing_at true true other k = [])) -> done_upto (S k) mine other v mine'.
Proof.
  intros (L & H) N. split; auto. intros i I. destruct (H i I) as [F [Z|P]]; split; auto. right. intros j. rewrite P.
  destruct (Nat.eq_dec j k) as [->|D].
  - replace (Nat.ltb k k) with false by (symmetry; apply Nat.ltb_ge; lia). replace (Nat.ltb k (S k)) with true by (symmetry; apply Nat.ltb_lt; lia).
    destruct (missing_at true true mine k) as [|m [|? ?]] eqn:E1; auto. destruct (missing_at true true other k) eqn:E2; auto.
    elim (N m); auto.
  - replace (Nat.ltb j (S k)) with (Nat.ltb j k); auto. destruct (Nat.ltb_spec j k); symmetry; [apply Nat.ltb_lt | apply Nat.ltb_ge]; lia.
Qed.
Lemma done_set k mine other v mine' m : (k < c)%nat -> done_upto k mine other v mine' ->
  missing_at true true mine k = [m] -> missing_at true true other k = [] ->
  done_upto (S k) mine other v (lset mine' m (set_component (nth m mine' dflt) k (v k))).
Proof.
  intros K (L & H) E1 E2. split; [now rewrite lset_length|]. intros i I. destruct (H i I) as [F P]. rewrite nth_lset.
  assert (M : In m (missing_at true true mine k)) by (rewrite E1; simpl; auto). apply missing_spec in M. destruct M as [M1 M2].
  replace (Nat.ltb m (length mine')) with true by (symmetry; apply Nat.ltb_lt; lia). rewrite andb_true_r.
  destruct (Nat.eqb_spec i m) as [->|D].
  - split; [now apply same_frame_set|]. destruct P as [Z|P]; [now left|].
    assert (T : (exists z o, st (nth m mine dflt) = SFrac z o) \/ (forall z o, st (nth m mine dflt) <> SFrac z o)).
    { destruct (st (nth m mine dflt)); eauto; right; congruence. }
    destruct T as [T|T]; [now left|]. right. intros j.
    destruct F as (_ & _ & _ & _ & W & _ & G). rewrite (flow_set_component c) by auto. rewrite P.
    destruct (Nat.eqb_spec j k) as [->|D].
    + replace (Nat.ltb k (S k)) with true by (symmetry; apply Nat.ltb_lt; lia). rewrite E1, E2, Nat.eqb_refl. reflexivity.
    + replace (Nat.ltb j (S k)) with (Nat.ltb j k); auto. destruct (Nat.ltb_spec j k); symmetry; [apply Nat.ltb_lt | apply Nat.ltb_ge]; lia.
  - split; auto. destruct P as [Z|P]; [now left|]. right. intros j. rewrite P.
    destruct (Nat.eq_dec j k) as [->|Dj].
    + replace (Nat.ltb k k) with false by (symmetry; apply Nat.ltb_ge; lia). rewrite E1, E2. destruct (Nat.eqb_spec m i); [congruence|]. rewrite !andb_false_r. reflexivity.
    + replace (Nat.ltb j (S k)) with (Nat.ltb j k); auto. destruct (Nat.ltb_spec j k); symmetry; [apply Nat.ltb_lt | apply Nat.ltb_ge]; lia.
Qed.

Definition excess (j : nat) : R := component_total ins j - component_total outs j.
Lemma component_loop k : (k <= c)%nat ->
  let '(p, (ins', outs')) := loop k (component_step true true ins outs) (false, (ins, outs)) in
  done_upto k ins outs (fun j => - excess j) ins' /\ done_upto k outs ins excess outs' /\
  (p = true <-> exists j, (j < k)%nat /\ length (missing_at true true ins j ++ missing_at true true outs j) = 1%nat).
Proof.
  induction k as [|k IH]; intros K.
  - simpl. splits; try apply done_start; auto. split; [discriminate|]. intros (j & J & _). lia.
  - cbn [loop]. specialize (IH ltac:(lia)). destruct (loop k _ _) as [p (ins', outs')]. destruct IH as (A & B & P).
    unfold component_step. rewrite !sum_at_total. fold (excess k).
    assert (Q : forall b, (b = true <-> length (missing_at true true ins k ++ missing_at true true outs k) = 1%nat) ->
      (orb p b = true <-> exists j, (j < S k)%nat /\ length (missing_at true true ins j ++ missing_at true true outs j) = 1%nat)).
    { intros b Hb. rewrite orb_true_iff, P, Hb. split.
      - intros [(j & J & E)|E]; [exists j; split; [lia|auto] | exists k; split; [lia|auto]].
      - intros (j & J & E). destruct (Nat.eq_dec j k) as [->|]; auto. left. exists j. split; [lia|auto]. }
    destruct (missing_at true true ins k) as [|m l] eqn:E1; [|destruct l as [|m' l]]; destruct (missing_at true true outs k) as [|n r] eqn:E2; try (destruct r as [|n' r]).
    all: pose proof (Q true) as Qt; pose proof (Q false) as Qf; rewrite orb_true_r in Qt; rewrite orb_false_r in Qf; clear Q.
    all: cbn [length app] in Qt, Qf; rewrite ?app_length in Qt, Qf; cbn [length] in Qt, Qf.
    all: splits; try (apply Qt; split; intros; reflexivity); try (apply Qf; split; intros; try discriminate; lia).
    all: try (apply done_keep; auto; intros ? [? ?]; congruence).
    all: try (apply (done_set k); auto).
    all: try (apply (done_set k ins outs (fun j => - excess j)); auto).
Qed.
End Componentwise.

Lemma lsum_change (g : stream -> R) m l : forall l', length l' = length l -> (m < length l)%nat ->
  (forall i, (i < length l)%nat -> i <> m -> g (nth i l' dflt) = g (nth i l dflt)) ->
  lsum (map g l') = lsum (map g l) - g (nth m l dflt) + g (nth m l' dflt).
Proof.
  revert m; induction l as [|y l IH]; intros m [|y' l'] L M H; simpl in *; try lia. unfold lsum in *. simpl.
  destruct m as [|m].
  - assert (E : map g l' = map g l).
    { apply (nth_ext _ _ (g dflt) (g dflt)); rewrite !map_length; auto. intros i I. rewrite !map_nth. apply (H (S i)); lia. }
    rewrite E. lra.
  - rewrite (IH m l') by (try lia; intros i I D; apply (H (S i)); lia). rewrite (H 0%nat) by lia. lra.
Qed.
Lemma not_incomplete_known c s : ~ incomplete c s -> forall j, (j < c)%nat -> molar_flow s j <> None.
Proof. intros H j J E. apply H. exists j; auto. Qed.

(* Everything the balance promises, for any numbers of inlets, outlets and components and any pattern of unknowns, when
   it reports success: streams are kept in order, no flow that was known changes, and every component whose flows are
   all known afterwards, and were not before, balances. The one premise: a stream that is the only incomplete one has
   no component flow of its own yet (C32_partly_known_refuted shows it is needed). *)
Definition fresh_if_alone (c : nat) (ins outs : list stream) : Prop :=
  (forall i, (i < length ins)%nat -> incomplete c (nth i ins dflt) -> (forall s, In s outs -> ~ incomplete c s) ->
     (forall k, (k < length ins)%nat -> k <> i -> ~ incomplete c (nth k ins dflt)) -> forall j, (j < c)%nat -> molar_flow (nth i ins dflt) j = None) /\
  (forall i, (i < length outs)%nat -> incomplete c (nth i outs dflt) -> (forall s, In s ins -> ~ incomplete c s) ->
     (forall k, (k < length outs)%nat -> k <> i -> ~ incomplete c (nth k outs dflt)) -> forall j, (j < c)%nat -> molar_flow (nth i outs dflt) j = None).
Definition keeps (c : nat) (l l' : list stream) : Prop := length l' = length l /\
  forall i j x, (i < length l)%nat -> (j < c)%nat -> molar_flow (nth i l dflt) j = Some x -> molar_flow (nth i l' dflt) j = Some x.

Section Unknowns.
Variables (c : nat) (l : list stream).
Hypothesis W : forall s, In s l -> well_formed c s.
Lemma unknowns_nil : positions (unknown true true) dflt l = [] -> forall s, In s l -> ~ incomplete c s.
Proof.
  intros E s I. destruct (In_nth l s dflt I) as (i & K & <-). rewrite <- (unknown_spec c) by auto.
  rewrite positions_nil in E. rewrite E by auto. discriminate.
Qed.
Lemma unknowns_one i : positions (unknown true true) dflt l = [i] -> (i < length l)%nat /\ incomplete c (nth i l dflt) /\
  forall k, (k < length l)%nat -> k <> i -> ~ incomplete c (nth k l dflt).
Proof.
  intros E. apply positions_one in E. destruct E as (I & U & O). splits; auto.
  - apply (unknown_spec c); auto. apply W, nth_In; auto.
  - intros k K D. rewrite <- (unknown_spec c) by (apply W, nth_In; auto). rewrite O; auto.
Qed.
Lemma unknowns_existsb : existsb (unknown true true) l = false <-> positions (unknown true true) dflt l = [].
Proof.
  rewrite positions_nil. split.
  - intros E i I. destruct (unknown true true (nth i l dflt)) eqn:U; auto. rewrite <- E. symmetry. apply existsb_exists. exists (nth i l dflt). split; auto. now apply nth_In.
  - intros H. destruct (existsb _ l) eqn:E; auto. apply existsb_exists in E. destruct E as (s & I & U). destruct (In_nth l s dflt I) as (i & K & <-). rewrite H in U; auto.
Qed.
End Unknowns.

Lemma component_done c ins outs ins' outs' p : (forall s, In s ins -> well_formed c s) -> (forall s, In s outs -> well_formed c s) ->
  loop c (component_step true true ins outs) (false, (ins, outs)) = (p, (ins', outs')) ->
  keeps c ins ins' /\ keeps c outs outs' /\
  (forall j, (j < c)%nat -> all_known ins' j -> all_known outs' j -> ~ (all_known ins j /\ all_known outs j) ->
     component_total ins' j = component_total outs' j) /\
  (p = true <-> exists j, (j < c)%nat /\ length (missing_at true true ins j ++ missing_at true true outs j) = 1%nat).
Proof.
  intros Wi Wo E. pose proof (component_loop ins outs c Wi Wo c (le_n c)) as H. rewrite E in H. destruct H as (A & B & P).
  assert (kp : forall mine other v mine', done_upto c c mine other v mine' -> keeps c mine mine').
  { intros mine other v mine' (L & H). split; auto. intros i j x I J X. destruct (H i I) as [F [Z|Q]].
    - destruct F as (_ & _ & _ & _ & _ & F & _). rewrite (F Z). auto.
    - rewrite Q, X. destruct (missing_at true true mine j) as [|m [|? ?]] eqn:M; rewrite ?andb_false_r; auto.
      destruct (missing_at true true other j); rewrite ?andb_false_r; auto. destruct (Nat.eqb_spec m i) as [->|]; rewrite ?andb_false_r; auto.
      assert (Y : In i (missing_at true true mine j)) by (rewrite M; simpl; auto). apply missing_spec in Y. destruct Y. congruence. }
  (* flows at j when the side is not the one completed at j *)
  assert (same : forall mine other v mine' j, done_upto c c mine other v mine' -> (j < c)%nat ->
     (forall m, ~ (missing_at true true mine j = [m] /\ missing_at true true other j = [])) ->
     forall i, (i < length mine)%nat -> molar_flow (nth i mine' dflt) j = molar_flow (nth i mine dflt) j).
  { intros mine other v mine' j (L & H) J N i I. destruct (H i I) as [F [Z|Q]].
    - destruct F as (_ & _ & _ & _ & _ & F & _). now rewrite (F Z).
    - rewrite Q. destruct (missing_at true true mine j) as [|m [|? ?]] eqn:M; rewrite ?andb_false_r; auto.
      destruct (missing_at true true other j) eqn:M2; rewrite ?andb_false_r; auto. elim (N m); auto. }
  assert (sameT : forall mine mine' j, length mine' = length mine -> (forall i, (i < length mine)%nat -> molar_flow (nth i mine' dflt) j = molar_flow (nth i mine dflt) j) ->
     component_total mine' j = component_total mine j /\ (all_known mine' j -> all_known mine j)).
  { intros mine mine' j L H. split.
    - unfold component_total. f_equal. set (g := fun s => match molar_flow s j with Some x => x | None => 0 end).
      apply (nth_ext _ _ (g dflt) (g dflt)); rewrite !map_length; auto. intros i I. rewrite !map_nth. unfold g. rewrite H by lia. reflexivity.
    - intros K s I. destruct (In_nth mine s dflt I) as (i & Q & <-). rewrite <- H by auto. apply K. apply nth_In. lia. }
  assert (closed : forall mine other v mine' j m, done_upto c c mine other v mine' -> (j < c)%nat -> missing_at true true mine j = [m] -> missing_at true true other j = [] ->
     all_known mine' j -> component_total mine' j = component_total mine j + v j).
  { intros mine other v mine' j m (L & H) J M1 M2 K.
    assert (Y : In m (missing_at true true mine j)) by (rewrite M1; simpl; auto). apply missing_spec in Y. destruct Y as [Y1 Y2].
    unfold component_total. rewrite (lsum_change _ m mine mine'); auto.
    - rewrite Y2. destruct (H m Y1) as [F [Z|Q]].
      + destruct F as (_ & _ & _ & _ & _ & F & _). exfalso. apply (K (nth m mine' dflt)); [apply nth_In; lia|]. now rewrite (F Z).
      + rewrite Q, M1, M2, Nat.eqb_refl. replace (Nat.ltb j c) with true by (symmetry; apply Nat.ltb_lt; auto). cbn [andb]. lra.
    - intros i I D. destruct (H i I) as [F [Z|Q]].
      + destruct F as (_ & _ & _ & _ & _ & F & _). now rewrite (F Z).
      + rewrite Q, M1, M2. destruct (Nat.eqb_spec m i); [congruence|]. rewrite andb_false_r. reflexivity. }
  splits; eauto. intros j J Ki Ko N.
  pose proof A as (LA & _). pose proof B as (LB & _).
  destruct (missing_at true true ins j) as [|m [|m' l]] eqn:M1; destruct (missing_at true true outs j) as [|n [|n' r]] eqn:M2.
  - elim N. split; apply missing_nil; auto.
  - destruct (sameT ins ins' j LA) as [S1 _]; [apply (same _ _ _ _ j A J); intros ? [? ?]; congruence|].
    rewrite S1, (closed _ _ _ _ j n B J M2 M1 Ko). unfold excess. lra.
  - destruct (sameT outs outs' j LB) as [_ S2]; [apply (same _ _ _ _ j B J); intros ? [? ?]; congruence|].
    apply S2, missing_nil in Ko. congruence.
  - destruct (sameT outs outs' j LB) as [S1 _]; [apply (same _ _ _ _ j B J); intros ? [? ?]; congruence|].
    rewrite S1, (closed _ _ _ _ j m A J M1 M2 Ki). unfold excess. lra.
  - destruct (sameT outs outs' j LB) as [_ S2]; [apply (same _ _ _ _ j B J); intros ? [? ?]; congruence|].
    apply S2, missing_nil in Ko. congruence.
  - destruct (sameT outs outs' j LB) as [_ S2]; [apply (same _ _ _ _ j B J); intros ? [? ?]; congruence|].
    apply S2, missing_nil in Ko. congruence.
  - destruct (sameT ins ins' j LA) as [_ S2]; [apply (same _ _ _ _ j A J); intros ? [? ?]; congruence|].
    apply S2, missing_nil in Ki. congruence.
  - destruct (sameT ins ins' j LA) as [_ S2]; [apply (same _ _ _ _ j A J); intros ? [? ?]; congruence|].
    apply S2, missing_nil in Ki. congruence.
  - destruct (sameT ins ins' j LA) as [_ S2]; [apply (same _ _ _ _ j A J); intros ? [? ?]; congruence|].
    apply S2, missing_nil in Ki. congruence.
Qed.

Lemma flow_set_n s n j : n_of s = None -> molar_flow (set_n s n) j = molar_flow s j \/ (exists z, st s = SFrac (Some z) None) /\ forall k, molar_flow s k = None.
Proof.
  unfold molar_flow, set_n, n_of; cbn [st n_spec mw vl vg]. destruct (n_spec s); [discriminate|]. destruct (st s) as [l|l|l|l|[z|] [o|]]; auto; try discriminate.
  intros _. right. split; eauto.
Qed.
Lemma keeps_refl c l : keeps c l l. Proof. split; auto. Qed.
Lemma keeps_set_n c l i n : (i < length l)%nat -> n_of (nth i l dflt) = None -> keeps c l (lset l i (set_n (nth i l dflt) n)).
Proof.
  intros I E. split; [apply lset_length|]. intros k j x K J X. rewrite nth_lset.
  destruct (Nat.eqb_spec k i) as [->|]; auto. replace (Nat.ltb i (length l)) with true by (symmetry; apply Nat.ltb_lt; auto). simpl.
  destruct (flow_set_n (nth i l dflt) n j E) as [->|[_ Q]]; auto. rewrite Q in X. discriminate.
Qed.
Lemma n_missing_one l i : n_missing true true l = [i] -> (i < length l)%nat /\ n_of (nth i l dflt) = None.
Proof.
  unfold n_missing. destruct (existsb _ l); [|discriminate]. intros E. apply positions_one in E. destruct E as (I & U & _). split; auto.
  destruct (n_of (nth i l dflt)); [discriminate | reflexivity].
Qed.
(* after set_n, a component fully known now was fully known before unless only that stream missed it *)
Lemma all_known_set_n c l i n j : (i < length l)%nat -> n_of (nth i l dflt) = None -> (j < c)%nat ->
  all_known (lset l i (set_n (nth i l dflt) n)) j -> all_known l j \/ missing_at true true l j = [i].
Proof.
  intros I E J K. destruct (molar_flow (nth i l dflt) j) eqn:F.
  - left. intros s S. destruct (In_nth l s dflt S) as (k & Q & <-). destruct (Nat.eq_dec k i) as [->|D]; [congruence|].
    specialize (K (nth k (lset l i (set_n (nth i l dflt) n)) dflt)). rewrite nth_lset in K.
    destruct (Nat.eqb_spec k i); [congruence|]. simpl in K. apply K.
    rewrite <- (nth_lset l i (set_n (nth i l dflt) n) k dflt) at 1 || idtac.
    replace (nth k l dflt) with (nth k (lset l i (set_n (nth i l dflt) n)) dflt).
    + apply nth_In. now rewrite lset_length.
    + rewrite nth_lset. destruct (Nat.eqb_spec k i); [congruence | reflexivity].
  - right. unfold missing_at. apply positions_one. rewrite at_flow, F. splits; auto. intros k Q D. rewrite at_flow.
    assert (In (nth k l dflt) (lset l i (set_n (nth i l dflt) n))).
    { replace (nth k l dflt) with (nth k (lset l i (set_n (nth i l dflt) n)) dflt).
      + apply nth_In. now rewrite lset_length.
      + rewrite nth_lset. destruct (Nat.eqb_spec k i); [congruence | reflexivity]. }
    specialize (K _ H). destruct (molar_flow (nth k l dflt) j); [reflexivity | congruence].
Qed.

Theorem C32_mole_balance ins outs c ins' outs' : (forall s, In s ins \/ In s outs -> well_formed c s) -> fresh_if_alone c ins outs ->
  mole_balance true true ins outs c = (true, (ins', outs')) ->
  keeps c ins ins' /\ keeps c outs outs' /\
  forall j, (j < c)%nat -> all_known ins' j -> all_known outs' j -> ~ (all_known ins j /\ all_known outs j) ->
    component_total ins' j = component_total outs' j.
Proof.
  intros W (FI & FO) E.
  assert (Wi : forall s, In s ins -> well_formed c s) by auto. assert (Wo : forall s, In s outs -> well_formed c s) by auto.
  assert (general : (let '(progress, (ins'0, outs'0)) := loop c (component_step true true ins outs) (false, (ins, outs)) in
      if progress then (true, (ins'0, outs'0)) else totals true true ins outs) = (true, (ins', outs')) ->
    keeps c ins ins' /\ keeps c outs outs' /\
    forall j, (j < c)%nat -> all_known ins' j -> all_known outs' j -> ~ (all_known ins j /\ all_known outs j) -> component_total ins' j = component_total outs' j).
  { destruct (loop c _ _) as [p (i0, o0)] eqn:L. destruct (component_done c ins outs i0 o0 p Wi Wo L) as (A & B & C0 & D).
    destruct p.
    - intros Q; inversion Q; subst. splits; auto.
    - intros Q. assert (none : forall j, (j < c)%nat -> length (missing_at true true ins j ++ missing_at true true outs j) <> 1%nat).
      { intros j J Z. assert (false = true) by (apply D; eauto). discriminate. }
      unfold totals in Q. destruct (n_missing true true ins) as [|i [|? ?]] eqn:M1; destruct (n_missing true true outs) as [|k [|? ?]] eqn:M2; inversion Q; subst.
      + destruct (n_missing_one _ _ M2) as [K N]. splits; auto using keeps_refl, keeps_set_n. intros j J Ki Ko NK. exfalso.
        destruct (all_known_set_n c _ _ _ _ K N J Ko) as [Y|Y]; [apply NK; auto|]. apply (none j J). rewrite Y. apply missing_nil in Ki. rewrite Ki. reflexivity.
      + destruct (n_missing_one _ _ M1) as [K N]. splits; auto using keeps_refl, keeps_set_n. intros j J Ki Ko NK. exfalso.
        destruct (all_known_set_n c _ _ _ _ K N J Ki) as [Y|Y]; [apply NK; auto|]. apply (none j J). rewrite Y. apply missing_nil in Ko. rewrite Ko. reflexivity. }
  unfold mole_balance in E.
  destruct (positions (unknown true true) dflt ins) as [|i [|i' l]] eqn:P1; destruct (positions (unknown true true) dflt outs) as [|k [|k' r]] eqn:P2; auto; try discriminate.
  - (* one outlet *)
    pose proof (unknowns_nil c ins Wi P1) as KI. destruct (unknowns_one c outs Wo k P2) as (K & U & O). clear general.
    destruct (C32_single_outlet ins outs c k KI W K U O) as (o & Eo & Lo & So & Bo).
    assert (E' : mole_balance true true ins outs c = (true, (ins', outs'))) by (unfold mole_balance; rewrite P1, P2; exact E).
    rewrite Eo in E'. inversion E'; subst. splits; auto using keeps_refl.
    + split; auto. intros q j x Q J X. destruct (Nat.eq_dec q k) as [->|D]; [|rewrite So; auto]. rewrite (FO k K U KI O j J) in X. discriminate.
    + intros j J _ _ _. destruct (Bo j J) as [_ ->]. rewrite (FO k K U KI O j J). destruct (Nat.eqb _ 1); lra.
  - (* one inlet *)
    pose proof (unknowns_nil c outs Wo P2) as KO. destruct (unknowns_one c ins Wi i P1) as (K & U & O). clear general.
    destruct (C32_single_inlet ins outs c i KO W K U O) as (o & Eo & Lo & So & Bo).
    assert (E' : mole_balance true true ins outs c = (true, (ins', outs'))) by (unfold mole_balance; rewrite P1, P2; exact E).
    rewrite Eo in E'. inversion E'; subst. splits; auto using keeps_refl.
    + split; auto. intros q j x Q J X. destruct (Nat.eq_dec q i) as [->|D]; [|rewrite So; auto]. rewrite (FI i K U KO O j J) in X. discriminate.
    + intros j J _ _ _. destruct (Bo j J) as [_ ->]. rewrite (FI i K U KO O j J). destruct (Nat.eqb _ 1); lra.
Qed.

(* the completed stream: its component flows are stored as mole flows and its total is their sum, whatever was stored before *)
Theorem C32_completed_total ins outs c ins' outs' : mole_balance true true ins outs c = (true, (ins', outs')) ->
  (forall i, positions (unknown true true) dflt ins = [] -> positions (unknown true true) dflt outs = [i] ->
     exists l, length l = c /\ st (nth i outs' dflt) = SNs (map Some l) /\ n_of (nth i outs' dflt) = Some (lsum l)) /\
  (forall i, positions (unknown true true) dflt outs = [] -> positions (unknown true true) dflt ins = [i] ->
     exists l, length l = c /\ st (nth i ins' dflt) = SNs (map Some l) /\ n_of (nth i ins' dflt) = Some (lsum l)).
Proof.
  assert (CV : forall l, complete (map Some l) = true /\ vals (map Some l) = l). { induction l as [|x l [I1 I2]]; [auto|]. split; [exact I1|]. unfold vals in *. cbn [map]. now rewrite I2. }
  assert (PL : forall i (l : list stream), positions (unknown true true) dflt l = [i] -> (i < length l)%nat).
  { intros i l P. assert (In i (positions (unknown true true) dflt l)) as H by (rewrite P; left; auto). unfold positions in H. apply filter_In in H as [H _]. apply in_seq in H. lia. }
  intros E. unfold mole_balance in E. split; intros i P1 P2; rewrite P1, P2 in E; inversion E; subst; clear E.
  - exists (close_one true true ins' outs c). rewrite nth_lset, Nat.eqb_refl. replace (Nat.ltb i (length outs)) with true by (symmetry; apply Nat.ltb_lt; auto). cbn [andb]. splits.
    + unfold close_one. now rewrite map_length, seq_length.
    + reflexivity.
    + unfold set_ns, n_of. cbn [n_spec st]. destruct (CV (close_one true true ins' outs c)) as [-> ->]. reflexivity.
  - exists (close_one true true outs' ins c). rewrite nth_lset, Nat.eqb_refl. replace (Nat.ltb i (length ins)) with true by (symmetry; apply Nat.ltb_lt; auto). cbn [andb]. splits.
    + unfold close_one. now rewrite map_length, seq_length.
    + reflexivity.
    + unfold set_ns, n_of. cbn [n_spec st]. destruct (CV (close_one true true outs' ins c)) as [-> ->]. reflexivity.
Qed.

(* No success: nothing has changed, and indeed there was no single unknown to compute. *)
Theorem C32_no_progress ins outs c ins' outs' : (forall s, In s ins \/ In s outs -> well_formed c s) ->
  mole_balance true true ins outs c = (false, (ins', outs')) ->
  ins' = ins /\ outs' = outs /\
  ((forall s, In s ins \/ In s outs -> ~ incomplete c s) \/
   forall j, (j < c)%nat -> length (missing_at true true ins j ++ missing_at true true outs j) <> 1%nat).
Proof.
  intros W. assert (Wi : forall s, In s ins -> well_formed c s) by auto. assert (Wo : forall s, In s outs -> well_formed c s) by auto.
  assert (general : (let '(progress, (ins'0, outs'0)) := loop c (component_step true true ins outs) (false, (ins, outs)) in
      if progress then (true, (ins'0, outs'0)) else totals true true ins outs) = (false, (ins', outs')) ->
     ins' = ins /\ outs' = outs /\ forall j, (j < c)%nat -> length (missing_at true true ins j ++ missing_at true true outs j) <> 1%nat).
  { destruct (loop c _ _) as [p (i0, o0)] eqn:L. destruct (component_done c ins outs i0 o0 p Wi Wo L) as (A & B & C0 & D).
    destruct p; [discriminate|]. intros Q. split; [|split].
    - unfold totals in Q. destruct (n_missing true true ins) as [|i [|? ?]]; destruct (n_missing true true outs) as [|k [|? ?]]; inversion Q; auto.
    - unfold totals in Q. destruct (n_missing true true ins) as [|i [|? ?]]; destruct (n_missing true true outs) as [|k [|? ?]]; inversion Q; auto.
    - intros j J Z. assert (false = true) by (apply D; eauto). discriminate. }
  unfold mole_balance.
  destruct (positions (unknown true true) dflt ins) as [|i [|i' l]] eqn:P1; destruct (positions (unknown true true) dflt outs) as [|k [|k' r]] eqn:P2;
    try discriminate; try (intros E; destruct (general E) as (-> & -> & H); splits; auto).
  intros E; inversion E; subst. splits; auto. left. intros s [I|I]; [apply (unknowns_nil c ins') | apply (unknowns_nil c outs')]; auto.
Qed.

(* ---- total flows ---- *)
(* specification: the total molar flow of a stream, where it is given or follows from complete component flows *)
Definition component_sum (c : nat) (s : stream) : R := rsum c (fun j => match molar_flow s j with Some x => x | None => 0 end).
Definition total_flow (c : nat) (s : stream) : option R :=
  match n_spec s, st s with
  | Some n, _ => Some n
  | None, SFrac (Some _) o => o
  | None, SFrac None _ => None
  | None, _ => if unknown true true s then None else Some (component_sum c s)
  end.
(* a total given beside complete component flows is their sum *)
Definition consistent_total (c : nat) (s : stream) : Prop := ~ incomplete c s -> total_flow c s = Some (component_sum c s).

Lemma rsum_S_l n f : rsum (S n) f = f 0%nat + rsum n (fun i => f (S i)).
Proof. induction n; simpl in *; [lra|]. rewrite IHn. lra. Qed.
Lemma lsum_vals l : complete l = true -> lsum (vals l) = rsum (length l) (fun j => match nth j l None with Some x => x | None => 0 end).
Proof.
  induction l as [|x l IH]; intros H; [reflexivity|]. simpl in H. destruct x as [x|]; [|discriminate]. simpl in H.
  cbn [length]. rewrite rsum_S_l. cbn [nth]. unfold lsum, vals in *. simpl. rewrite IH by exact H. reflexivity.
Qed.
Lemma lsum_conv s c f l : st s = SMs l /\ f = (fun j m => m * 1000 / mw s j) \/ st s = SQls l /\ f = (fun j q => q / vl s j) \/ st s = SQgs l /\ f = (fun j q => q / vg s) ->
  length l = c -> complete l = true -> lsum (vals (conv f l)) = component_sum c s.
Proof.
  intros H L C. assert (C2 : complete (conv f l) = true).
  { apply complete_nth. unfold conv. rewrite mapi_length. intros j J. fold (conv f l). rewrite nth_conv. rewrite complete_nth in C. specialize (C j J). destruct (nth j l None); [discriminate | congruence]. }
  rewrite lsum_vals by auto. unfold conv at 1. rewrite mapi_length, L. unfold component_sum. apply rsum_ext. intros j J. rewrite nth_conv.
  unfold molar_flow. destruct H as [[-> ->]|[[-> ->]|[-> ->]]]; reflexivity.
Qed.
Lemma n_of_total c s : well_formed c s -> n_of s = total_flow c s.
Proof.
  intros (L & _ & _ & C). unfold n_of, total_flow. destruct (n_spec s); auto. unfold unknown, view.
  destruct (st s) as [l|l|l|l|[z|] o] eqn:E; cbn [andb]; auto.
  - destruct (complete l) eqn:K; simpl; auto. rewrite lsum_vals, L by auto. unfold component_sum, molar_flow. rewrite E. reflexivity.
  - destruct (complete l) eqn:K.
    + assert (A : anysome l = true).
      { destruct (anysome l) eqn:A; auto. rewrite complete_nth in K. elim (K 0%nat); [lia|]. now apply anysome_nth. }
      rewrite A, (lsum_conv s c _ l); auto. replace (complete (conv _ l)) with true; auto.
      symmetry. apply complete_nth. unfold conv at 1. rewrite mapi_length. intros j J. rewrite nth_conv. rewrite complete_nth in K. specialize (K j J). destruct (nth j l None); [discriminate | congruence].
    + destruct (anysome l); auto. replace (complete (conv _ l)) with false; auto. symmetry. apply complete_false in K. destruct K as (j & J & N).
      apply complete_false. exists j. unfold conv at 1. rewrite mapi_length, nth_conv, N. auto.
  - destruct (complete l) eqn:K.
    + rewrite (lsum_conv s c _ l); auto. replace (complete (conv _ l)) with true; auto.
      symmetry. apply complete_nth. unfold conv at 1. rewrite mapi_length. intros j J. rewrite nth_conv. rewrite complete_nth in K. specialize (K j J). destruct (nth j l None); [discriminate | congruence].
    + destruct (anysome l); auto. replace (complete (conv _ l)) with false; auto. symmetry. apply complete_false in K. destruct K as (j & J & N).
      apply complete_false. exists j. unfold conv at 1. rewrite mapi_length, nth_conv, N. auto.
  - destruct (complete l) eqn:K.
    + rewrite (lsum_conv s c _ l); auto. replace (complete (conv _ l)) with true; auto.
      symmetry. apply complete_nth. unfold conv at 1. rewrite mapi_length. intros j J. rewrite nth_conv. rewrite complete_nth in K. specialize (K j J). destruct (nth j l None); [discriminate | congruence].
    + destruct (anysome l); auto. replace (complete (conv _ l)) with false; auto. symmetry. apply complete_false in K. destruct K as (j & J & N).
      apply complete_false. exists j. unfold conv at 1. rewrite mapi_length, nth_conv, N. auto.
Qed.
Definition grand_total (c : nat) (l : list stream) : R := lsum (map (fun s => match total_flow c s with Some x => x | None => 0 end) l).
Lemma view_sum c s v : well_formed c s -> view true true s = Some v -> complete v = true -> lsum (vals v) = component_sum c s.
Proof.
  intros W V C. assert (L : length v = c).
  { destruct W as (L & _). revert V. unfold view. destruct (st s) as [l0|l0|l0|l0|[z|] o]; cbn [andb]; try discriminate;
      repeat match goal with |- context [if ?b then _ else _] => destruct b end; try discriminate;
      try (let Q := fresh in intros Q; inversion Q; subst; unfold conv; rewrite ?mapi_length; now auto).
    destruct (n_of s); [|discriminate]. intros Q; inversion Q. now rewrite map_length. }
  rewrite lsum_vals, L by auto. unfold component_sum. apply rsum_ext. intros j J. rewrite <- at_flow. unfold at_. rewrite V. reflexivity.
Qed.
Lemma n_total_spec c l : (forall s, In s l -> well_formed c s /\ consistent_total c s) -> n_total true true l = grand_total c l.
Proof.
  intros W. unfold n_total, grand_total. destruct (existsb (unknown true true) l) eqn:E.
  - f_equal. apply map_ext_in. intros s I. rewrite (n_of_total c) by (apply W; auto). reflexivity.
  - f_equal. apply map_ext_in. intros s I. destruct (W s I) as [Ws Cs].
    assert (U : unknown true true s = false). { destruct (unknown true true s) eqn:U; auto. rewrite <- E. symmetry. apply existsb_exists. eauto. }
    rewrite Cs by (rewrite <- (unknown_spec c); auto; congruence). unfold unknown in U. destruct (view true true s) as [v|] eqn:V; [|discriminate].
    apply negb_false_iff in U. eapply view_sum; eauto.
Qed.
Lemma n_missing_spec c l i : (forall s, In s l -> well_formed c s /\ consistent_total c s) -> In i (n_missing true true l) <-> (i < length l)%nat /\ total_flow c (nth i l dflt) = None.
Proof.
  intros W. unfold n_missing. destruct (existsb (unknown true true) l) eqn:E.
  - rewrite positions_in. split; intros [I H]; split; auto; rewrite (n_of_total c) in *; try (apply W, nth_In; auto).
    + destruct (total_flow c _); [discriminate | reflexivity].
    + rewrite H. reflexivity.
  - split; [intros []|]. intros [I H]. destruct (W _ (nth_In l dflt I)) as [Ws Cs]. rewrite Cs in H; [discriminate|].
    rewrite <- (unknown_spec c) by auto. intros U. assert (existsb (unknown true true) l = true) by (apply existsb_exists; exists (nth i l dflt); split; auto; now apply nth_In). congruence.
Qed.

(* When no component can be closed on its own but exactly one total molar flow is missing, that total is set to close the overall
   balance; no stored component flow is touched. *)
Theorem C32_total_flow_outlet ins outs c i : (forall s, In s ins \/ In s outs -> well_formed c s /\ consistent_total c s) ->
  (forall j, (j < c)%nat -> length (missing_at true true ins j ++ missing_at true true outs j) <> 1%nat) ->
  (forall s, In s ins -> total_flow c s <> None) -> (i < length outs)%nat -> total_flow c (nth i outs dflt) = None ->
  (forall k, (k < length outs)%nat -> k <> i -> total_flow c (nth k outs dflt) <> None) -> (exists s, In s ins /\ incomplete c s) ->
  exists outs', mole_balance true true ins outs c = (true, (ins, outs')) /\ length outs' = length outs /\
    (forall k, k <> i -> nth k outs' dflt = nth k outs dflt) /\ st (nth i outs' dflt) = st (nth i outs dflt) /\
    grand_total c ins = grand_total c outs'.
Proof.
  intros W N TI I T TO (s & Is & Us).
  assert (Wi : forall s, In s ins -> well_formed c s /\ consistent_total c s) by auto. assert (Wo : forall s, In s outs -> well_formed c s /\ consistent_total c s) by auto.
  assert (U1 : positions (unknown true true) dflt ins <> []).
  { intros E. apply (unknowns_nil c ins (fun s H => proj1 (Wi s H)) E s Is Us). }
  assert (U2 : positions (unknown true true) dflt outs <> []).
  { intros E. pose proof (nth_In outs dflt I) as Q. destruct (Wo _ Q) as [W1 W2]. rewrite W2 in T; [discriminate|]. apply (unknowns_nil c outs (fun s H => proj1 (Wo s H)) E _ Q). }
  assert (M1 : n_missing true true ins = []).
  { destruct (n_missing true true ins) as [|k r] eqn:E; auto. assert (In k (n_missing true true ins)) by (rewrite E; simpl; auto).
    apply (n_missing_spec c) in H; auto. destruct H as [H1 H2]. elim (TI _ (nth_In ins dflt H1) H2). }
  assert (M2 : n_missing true true outs = [i]).
  { assert (Z : In i (n_missing true true outs)) by (apply (n_missing_spec c); auto).
    assert (only : forall k, In k (n_missing true true outs) -> k = i).
    { intros k K. apply (n_missing_spec c) in K; auto. destruct K as [K1 K2]. destruct (Nat.eq_dec k i); auto. elim (TO k K1 n K2). }
    assert (ND : NoDup (n_missing true true outs)). { unfold n_missing. destruct (existsb _ outs); [|constructor]. apply NoDup_filter, seq_NoDup. }
    destruct (n_missing true true outs) as [|a [|b r]]; [destruct Z| |]; rewrite (only a) by (simpl; auto); auto.
    exfalso. inversion ND; subst. apply H1. rewrite (only a), <- (only b); simpl; auto. }
  assert (L : exists x, loop c (component_step true true ins outs) (false, (ins, outs)) = (false, x)).
  { destruct (loop c _ _) as [p (i0, o0)] eqn:L. destruct (component_done c ins outs i0 o0 p (fun s H => proj1 (Wi s H)) (fun s H => proj1 (Wo s H)) L) as (_ & _ & _ & D).
    destruct p; eauto. destruct D as [D _]. destruct (D eq_refl) as (j & J & Q). elim (N j J Q). }
  destruct L as ((i0, o0) & L).
  exists (lset outs i (set_n (nth i outs dflt) (n_total true true ins - n_total true true outs))). splits.
  - unfold mole_balance. rewrite L. assert (TT : totals true true ins outs = (true, (ins, lset outs i (set_n (nth i outs dflt) (n_total true true ins - n_total true true outs)))))
      by (unfold totals; rewrite M1, M2; reflexivity). rewrite TT.
    destruct (positions (unknown true true) dflt ins) as [|? [|? ?]]; [congruence| |]; destruct (positions (unknown true true) dflt outs) as [|? [|? ?]]; try congruence; reflexivity.
  - apply lset_length.
  - intros k D. rewrite nth_lset. destruct (Nat.eqb_spec k i); [congruence | reflexivity].
  - rewrite nth_lset, Nat.eqb_refl. replace (Nat.ltb i (length outs)) with true by (symmetry; apply Nat.ltb_lt; auto). reflexivity.
  - rewrite (n_total_spec c ins), (n_total_spec c outs) by auto. unfold grand_total at 2. rewrite (lsum_lset _ _ _ _ dflt) by auto. rewrite T.
    fold (grand_total c outs). unfold total_flow, set_n; cbn [n_spec]. lra.
Qed.

Theorem C32_total_flow_inlet ins outs c i : (forall s, In s ins \/ In s outs -> well_formed c s /\ consistent_total c s) ->
  (forall j, (j < c)%nat -> length (missing_at true true ins j ++ missing_at true true outs j) <> 1%nat) ->
  (forall s, In s outs -> total_flow c s <> None) -> (i < length ins)%nat -> total_flow c (nth i ins dflt) = None ->
  (forall k, (k < length ins)%nat -> k <> i -> total_flow c (nth k ins dflt) <> None) -> (exists s, In s outs /\ incomplete c s) ->
  exists ins', mole_balance true true ins outs c = (true, (ins', outs)) /\ length ins' = length ins /\
    (forall k, k <> i -> nth k ins' dflt = nth k ins dflt) /\ st (nth i ins' dflt) = st (nth i ins dflt) /\
    grand_total c ins' = grand_total c outs.
Proof.
  intros W N TI I T TO (s & Is & Us).
  assert (Wi : forall s, In s outs -> well_formed c s /\ consistent_total c s) by auto. assert (Wo : forall s, In s ins -> well_formed c s /\ consistent_total c s) by auto.
  assert (U1 : positions (unknown true true) dflt outs <> []).
  { intros E. apply (unknowns_nil c outs (fun s H => proj1 (Wi s H)) E s Is Us). }
  assert (U2 : positions (unknown true true) dflt ins <> []).
  { intros E. pose proof (nth_In ins dflt I) as Q. destruct (Wo _ Q) as [W1 W2]. rewrite W2 in T; [discriminate|]. apply (unknowns_nil c ins (fun s H => proj1 (Wo s H)) E _ Q). }
  assert (M1 : n_missing true true outs = []).
  { destruct (n_missing true true outs) as [|k r] eqn:E; auto. assert (In k (n_missing true true outs)) by (rewrite E; simpl; auto).
    apply (n_missing_spec c) in H; auto. destruct H as [H1 H2]. elim (TI _ (nth_In outs dflt H1) H2). }
  assert (M2 : n_missing true true ins = [i]).
  { assert (Z : In i (n_missing true true ins)) by (apply (n_missing_spec c); auto).
    assert (only : forall k, In k (n_missing true true ins) -> k = i).
    { intros k K. apply (n_missing_spec c) in K; auto. destruct K as [K1 K2]. destruct (Nat.eq_dec k i); auto. elim (TO k K1 n K2). }
    assert (ND : NoDup (n_missing true true ins)). { unfold n_missing. destruct (existsb _ ins); [|constructor]. apply NoDup_filter, seq_NoDup. }
    destruct (n_missing true true ins) as [|a [|b r]]; [destruct Z| |]; rewrite (only a) by (simpl; auto); auto.
    exfalso. inversion ND; subst. apply H1. rewrite (only a), <- (only b); simpl; auto. }
  assert (L : exists x, loop c (component_step true true ins outs) (false, (ins, outs)) = (false, x)).
  { destruct (loop c _ _) as [p (i0, o0)] eqn:L. destruct (component_done c ins outs i0 o0 p (fun s H => proj1 (Wo s H)) (fun s H => proj1 (Wi s H)) L) as (_ & _ & _ & D).
    destruct p; eauto. destruct D as [D _]. destruct (D eq_refl) as (j & J & Q). elim (N j J Q). }
  destruct L as ((i0, o0) & L).
  exists (lset ins i (set_n (nth i ins dflt) (n_total true true outs - n_total true true ins))). splits.
  - unfold mole_balance. rewrite L. assert (TT : totals true true ins outs = (true, (lset ins i (set_n (nth i ins dflt) (n_total true true outs - n_total true true ins)), outs)))
      by (unfold totals; rewrite M2, M1; reflexivity). rewrite TT.
    destruct (positions (unknown true true) dflt ins) as [|? [|? ?]]; [congruence| |]; destruct (positions (unknown true true) dflt outs) as [|? [|? ?]]; try congruence; reflexivity.
  - apply lset_length.
  - intros k D. rewrite nth_lset. destruct (Nat.eqb_spec k i); [congruence | reflexivity].
  - rewrite nth_lset, Nat.eqb_refl. replace (Nat.ltb i (length ins)) with true by (symmetry; apply Nat.ltb_lt; auto). reflexivity.
  - rewrite (n_total_spec c outs), (n_total_spec c ins) by auto. unfold grand_total at 1. rewrite (lsum_lset _ _ _ _ dflt) by auto. rewrite T.
    fold (grand_total c ins). unfold total_flow, set_n; cbn [n_spec]. lra.
Qed.

(* ---- findings ---- *)
Definition plain (l : vec) : stream := mkstream (SNs l) None (fun _ => 1000) (fun _ => 1) 1.
(* The only incomplete stream had part of its flows specified: they are overwritten, and the result does not balance. *)
Theorem C32_partly_known_refuted : exists ins outs c ins' outs', (forall s, In s ins \/ In s outs -> well_formed c s) /\
  mole_balance true true ins outs c = (true, (ins', outs')) /\
  molar_flow (nth 1 outs dflt) 0 = Some 4 /\ molar_flow (nth 1 outs' dflt) 0 <> Some 4 /\
  all_known ins' 0 /\ all_known outs' 0 /\ component_total ins' 0 <> component_total outs' 0.
Proof.
  exists [plain [Some 5; Some 5]], [plain [Some 1; Some 1]; plain [Some 4; None]], 2%nat. eexists. eexists. split.
  { intros s [[<-|[]]|[<-|[<-|[]]]]; unfold well_formed, plain; simpl; splits; auto; try lra; intros; split; lra. }
  split; [reflexivity|].
  cbv [nth molar_flow plain st set_ns mw vl vg n_spec]. simpl. splits; auto.
  - unfold sum_at, lsum, at_, known0; simpl. intros Q; injection Q; lra.
  - intros s [<-|[]]. discriminate.
  - intros s [<-|[<-|[]]]; discriminate.
  - unfold component_total, molar_flow, sum_at, lsum, at_, known0; simpl. lra.
Qed.
(* Success is reported although nothing was computed: the unknown stream stores no component list. Repeating the call as the
   docstring suggests never ends. *)
Theorem C32_no_change_refuted : exists ins outs c, (forall s, In s ins \/ In s outs -> well_formed c s) /\
  mole_balance true true ins outs c = (true, (ins, outs)).
Proof.
  exists [plain [Some 1; None]], [mkstream (SFrac None None) None (fun _ => 1) (fun _ => 1) 1], 2%nat. split; [|reflexivity].
  intros s [[<-|[]]|[<-|[]]]; unfold well_formed, plain; simpl; splits; auto; try lra; intros; split; lra.
Qed.
(* With use_mass=False a stream whose flow is specified by masses is taken as unknown and overwritten. *)
Theorem C32_use_mass_refuted : exists ins outs c ins' outs', (forall s, In s ins \/ In s outs -> well_formed c s) /\
  (forall s, In s ins \/ In s outs -> ~ incomplete c s) /\
  mole_balance false false ins outs c = (true, (ins', outs')) /\ molar_flow (nth 0 outs' dflt) 0 <> molar_flow (nth 0 outs dflt) 0.
Proof.
  exists [plain [Some 2]], [mkstream (SMs [Some 5]) None (fun _ => 1000) (fun _ => 1) 1], 1%nat. eexists. eexists. splits; [| |reflexivity|].
  - intros s [[<-|[]]|[<-|[]]]; unfold well_formed, plain; simpl; splits; auto; try lra; intros; split; lra.
  - intros s [[<-|[]]|[<-|[]]] (j & J & E); assert (j = 0)%nat by lia; subst; discriminate.
  - unfold molar_flow, sum_at, lsum, at_, known0; simpl. intros Q; injection Q; unfold sum_at, lsum, at_, known0; simpl; lra.
Qed.

(* two feeds, two products: the third component of each stream pair is closed stream by stream *)
Example C32_hypotheses_met : exists ins outs c ins' outs', (forall s, In s ins \/ In s outs -> well_formed c s) /\ fresh_if_alone c ins outs /\
  mole_balance true true ins outs c = (true, (ins', outs')) /\ all_known ins' 0 /\ all_known outs' 0 /\ ~ (all_known ins 0 /\ all_known outs 0) /\
  component_total ins' 0 = 7.
Proof.
  exists [plain [Some 3; None]; plain [Some 4; Some 1]], [plain [None; None]], 2%nat. eexists. eexists. splits; [| |reflexivity| | | |].
  - intros s [[<-|[<-|[]]]|[<-|[]]]; unfold well_formed, plain; simpl; splits; auto; try lra; intros; split; lra.
  - split; intros i I U K O; exfalso.
    + apply (K (plain [None; None])); [simpl; auto|]. exists 0%nat. split; [lia | reflexivity].
    + apply (K (plain [Some 3; None])); [simpl; auto|]. exists 1%nat. split; [lia | reflexivity].
  - intros s [<-|[<-|[]]]; discriminate.
  - intros s [<-|[]]; discriminate.
  - intros [_ K]. apply (K (plain [None; None])); [simpl; auto | reflexivity].
  - unfold component_total, lsum, molar_flow; simpl. lra.
Qed.
