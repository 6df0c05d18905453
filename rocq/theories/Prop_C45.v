(* C45: constants and correlations packages: subsetting, addition, component lookup. *)
From Coq Require Import Reals String List Bool Arith ZArith Lia.
From Verif Require Import Gen_package Model_package Spec_package BaseFacts.
Import ListNotations.
Open Scope list_scope.
Open Scope nat_scope.

Lemma assigned_id x : assigned x = x. Proof. destruct x; reflexivity. Qed.
Lemma has_in x l : has x l = true <-> In x l.
Proof. unfold has. destruct (in_dec _ _ _); split; intros; auto; discriminate. Qed.
Lemma has_out x l : has x l = false <-> ~ In x l.
Proof. rewrite <- has_in. destruct (has x l); split; intros; try discriminate; auto. exfalso; auto. Qed.
Lemma defaulted_all x : x <> MWs -> has x defaulted = true.
Proof. destruct x; intros H; try reflexivity. congruence. Qed.
Lemma non_vector_all x : x <> atom_fractions -> In x non_vector_properties.
Proof. intros H. apply has_in. destruct x; try reflexivity. congruence. Qed.
Lemma non_vector_not : ~ In atom_fractions non_vector_properties.
Proof. apply has_out. reflexivity. Qed.
Lemma properties_all x : In x properties.
Proof. apply has_in. destruct x; reflexivity. Qed.

(* ---- construction ---- *)
Definition filled (n : nat) (kw : kwargs) (x : prop) : list value := match kw x with Some l => l | None => repeat VNone n end.
Lemma new_ok n kw : lists_of n kw -> exists p, new_package kw = Ok p /\ N p = n /\ (forall x, attr p x = Some (filled n kw x)) /\ water_index p = first_index (KStr "7732-18-5") (filled n kw CASs) /\ n_atoms p = atom_counts (filled n kw atomss).
Proof.
  intros [[m HM] HL]. assert (length m = n) as <- by eauto. unfold new_package. rewrite HM.
  assert (A : forall x, match kw x with Some v => Some v | None => if has x defaulted then Some (repeat VNone (length m)) else None end = Some (filled (length m) kw x)).
  { intros x. unfold filled. destruct (kw x) eqn:E; auto. rewrite defaulted_all; auto. intros ->. congruence. }
  rewrite !A. eexists; split; [reflexivity|]. cbn [N attr water_index n_atoms]. splits; auto. intros x. rewrite assigned_id. apply A.
Qed.
Lemma filled_length n kw x : lists_of n kw -> length (filled n kw x) = n.
Proof. intros [_ H]. unfold filled. destruct (kw x) eqn:E; eauto. apply repeat_length. Qed.
Lemma reachable_new n kw p : lists_of n kw -> new_package kw = Ok p -> reachable p /\ N p = n /\ forall x, attr p x = Some (filled n kw x).
Proof. intros H E. destruct (new_ok n kw H) as (q & E' & H1 & H2 & _). rewrite E in E'. injection E' as <-. splits; auto. exists kw. rewrite H1. auto. Qed.
Lemma reachable_consistent p : reachable p -> consistent p.
Proof. intros (kw & H & E) x. destruct (reachable_new _ _ _ H E) as (_ & _ & A). exists (filled (N p) kw x). split; auto. now apply filled_length. Qed.

Theorem C45_construct n kw : lists_of n kw -> exists p, new_package kw = Ok p /\ reachable p /\ consistent p /\ N p = n /\
  forall x i, component p i x = match kw x with Some l => nth i l VNone | None => VNone end.
Proof.
  intros H. destruct (new_ok n kw H) as (p & E & H1 & H2 & _). exists p. destruct (reachable_new _ _ _ H E) as (R & _ & _). splits; auto using reachable_consistent.
  intros x i. unfold component. rewrite H2. unfold filled. destruct (kw x); auto. clear. revert i. induction n; intros [|i]; cbn; auto.
Qed.
(* the index of water is that of the first component with its CAS number; the atom counts are the totals of the atom dictionaries *)
Lemma first_index_spec k l : match first_index k l with Some i => i < length l /\ is_key k (nth i l VNone) = true /\ forall j, j < i -> is_key k (nth j l VNone) = false | None => forall j, j < length l -> is_key k (nth j l VNone) = false end.
Proof.
  induction l as [|v l IH]; cbn; [intros; lia|]. destruct (is_key k v) eqn:E; [splits; auto; try lia; intros; lia|].
  destruct (first_index k l) as [i|]; cbn.
  - destruct IH as (H1 & H2 & H3). splits; auto; [lia|]. intros [|j] Hj; auto. apply H3; lia.
  - intros [|j] Hj; auto. apply IH; lia.
Qed.
Lemma is_key_str s v : is_key (KStr s) v = true <-> v = VStr s.
Proof. destruct v; cbn; split; intros H; try discriminate. apply String.eqb_eq in H. now subst. injection H as ->. apply String.eqb_refl. Qed.
Theorem C45_water_index p : reachable p ->
  match water_index p with
  | Some i => i < N p /\ component p i CASs = VStr "7732-18-5" /\ forall j, j < i -> component p j CASs <> VStr "7732-18-5"
  | None => forall j, j < N p -> component p j CASs <> VStr "7732-18-5"
  end.
Proof.
  intros (kw & H & E). destruct (new_ok _ _ H) as (q & E' & _ & A & W & _). rewrite E in E'. injection E' as <-. rewrite W. unfold component. rewrite A.
  pose proof (first_index_spec (KStr "7732-18-5") (filled (N p) kw CASs)) as F. rewrite filled_length in F by auto. destruct (first_index _ _) as [i|].
  - destruct F as (F1 & F2 & F3). splits; auto. now apply is_key_str in F2. intros j Hj K. apply is_key_str in K. specialize (F3 j Hj). congruence.
  - intros j Hj K. apply is_key_str in K. specialize (F j Hj). congruence.
Qed.
Theorem C45_atom_counts p : reachable p ->
  match n_atoms p with
  | Some l => length l = N p /\ forall i, i < N p -> exists d, component p i atomss = VDict d /\ nth i l 0%Z = fold_right Z.add 0%Z (map snd d)
  | None => exists i, i < N p /\ forall d, component p i atomss <> VDict d
  end.
Proof.
  intros (kw & H & E). destruct (new_ok _ _ H) as (q & E' & _ & A & _ & W). rewrite E in E'. injection E' as <-. rewrite W. unfold component. rewrite A.
  pose proof (filled_length (N p) kw atomss H) as LL. revert LL. generalize (filled (N p) kw atomss) as l. generalize (N p) as n. intros n l <-. clear. induction l as [|v l IH]; cbn; [split; auto; intros; lia|].
  assert (K : (exists d, v = VDict d) \/ (forall d, v <> VDict d)) by (destruct v; eauto; right; intros d Hd; discriminate Hd).
  destruct K as [[d ->]|K].
  - destruct (atom_counts l) as [c|]; cbn.
    + destruct IH as [I1 I2]. split; [lia|]. intros [|i] Hi; [eauto|]. apply I2; lia.
    + destruct IH as (i & I1 & I2). exists (S i). split; auto; lia.
  - destruct v; cbn; try (exfalso; eapply K; reflexivity); exists 0; split; auto; try lia.
Qed.

(* ---- the collecting loop ---- *)
Lemma collect_ok p f (get : prop -> list value) g ps new : (forall x, attr p x = Some (get x)) -> (forall x, In x ps -> f x (get x) = Ok (g x)) ->
  exists kw, collect p f ps new = Ok kw /\ forall x, kw x = if has x ps then Some (g x) else new x.
Proof.
  intros HA. revert new. induction ps as [|y ps IH]; intros new HF; cbn [collect].
  - exists new. split; auto.
  - rewrite HA, HF by (left; auto). cbn [bind]. destruct (IH (set_kw new y (g y))) as (kw & E & K). { intros; apply HF; right; auto. }
    exists kw. split; auto. intros x. rewrite K. unfold set_kw. destruct (has x ps) eqn:E1.
    + assert (has x (y :: ps) = true) as -> by (apply has_in; right; now apply has_in). auto.
    + destruct (prop_eq_dec x y) as [->|N].
      * assert (has y (y :: ps) = true) as -> by (apply has_in; left; auto). auto.
      * assert (has x (y :: ps) = false) as ->. { apply has_out. intros [->|I]; auto. apply has_out in E1. auto. } auto.
Qed.
Lemma collect_fail p f (get : prop -> list value) e ps new : (forall x, attr p x = Some (get x)) -> (forall x, (exists v, f x (get x) = Ok v) \/ f x (get x) = Raise e) -> (exists x, In x ps /\ f x (get x) = Raise e) ->
  collect p f ps new = Raise e.
Proof.
  intros HA HF. revert new. induction ps as [|y ps IH]; intros new (x & HI & HX); cbn [collect]; [destruct HI|]. rewrite HA.
  destruct (HF y) as [(v & E)|E]; rewrite E; cbn [bind]; auto. apply IH. destruct HI as [<-|HI]; [congruence|eauto].
Qed.

(* ---- selectors ---- *)
Lemma py_index_spec n z k : py_index n z = Some k <-> k < n /\ (z = Z.of_nat k \/ z = (Z.of_nat k - Z.of_nat n)%Z).
Proof.
  unfold py_index. destruct ((0 <=? z)%Z && (z <? Z.of_nat n)%Z) eqn:E1; [|destruct ((- Z.of_nat n <=? z)%Z && (z <? 0)%Z) eqn:E2].
  - apply andb_prop in E1 as [A B]. apply Z.leb_le in A. apply Z.ltb_lt in B. split; [intros [= <-]; lia|]. intros [H1 H2]. f_equal. lia.
  - apply andb_prop in E2 as [A B]. apply Z.leb_le in A. apply Z.ltb_lt in B. split; [intros [= <-]; lia|]. intros [H1 H2]. f_equal. lia.
  - split; [discriminate|]. intros [H1 H2]. apply andb_false_iff in E1, E2. rewrite Z.leb_gt, Z.ltb_ge in E1, E2. lia.
Qed.
Lemma slice_range a b c n s : slice_indices a b c n = Some s -> forall i, In i s -> i < n.
Proof.
  unfold slice_indices. set (k := match c with Some k => k | None => 1%Z end). destruct (Z.eqb_spec k 0) as [|K]; [discriminate|].
  set (len := Z.of_nat n). set (lower := if (k <? 0)%Z then (-1)%Z else 0%Z). set (upper := if (k <? 0)%Z then (len - 1)%Z else len).
  set (i0 := match a with Some z => _ | None => _ end). set (j0 := match b with Some z => _ | None => _ end). intros [= <-] i HI. apply in_map_iff in HI as (m & <- & HM). apply in_seq in HM as [_ HM]. cbn in HM.
  assert (LU : (lower <= upper)%Z) by (unfold lower, upper, len; destruct (k <? 0)%Z; lia).
  assert (BI : (lower <= i0 <= upper)%Z). { unfold i0. destruct a as [z|]; [|destruct (k <? 0)%Z; lia]. unfold lower, upper in *. destruct (Z.ltb_spec z 0), (Z.ltb_spec k 0); lia. }
  assert (BJ : (lower <= j0 <= upper)%Z). { unfold j0. destruct b as [z|]; [|destruct (k <? 0)%Z; lia]. unfold lower, upper in *. destruct (Z.ltb_spec z 0), (Z.ltb_spec k 0); lia. }
  clearbody i0 j0. unfold lower, upper in *. destruct (Z.ltb_spec k 0) as [S|S].
  - assert (M : (Z.of_nat m <= (i0 - j0 - k - 1) / - k - 1)%Z) by lia.
    pose proof (Z.mul_div_le (i0 - j0 - k - 1) (- k) ltac:(lia)) as D. assert (Z.of_nat m * - k <= i0 - j0 - 1)%Z by nia. nia.
  - assert (M : (Z.of_nat m <= (j0 - i0 + k - 1) / k - 1)%Z) by lia.
    pose proof (Z.mul_div_le (j0 - i0 + k - 1) k ltac:(lia)) as D. assert (Z.of_nat m * k <= j0 - i0 - 1)%Z by nia. nia.
Qed.
(* [a:b] designates a, a + 1, ..., b - 1 *)
Theorem C45_plain_slice a b n : a <= b <= n -> designates n (Slice (Some (Z.of_nat a)) (Some (Z.of_nat b)) None) (seq a (b - a)).
Proof.
  intros H. cbn [designates]. unfold slice_indices. cbn. f_equal. destruct (Z.ltb_spec (Z.of_nat a) 0); [lia|]. destruct (Z.ltb_spec (Z.of_nat b) 0); [lia|].
  rewrite !Z.min_l by lia. rewrite Z.div_1_r. replace (Z.to_nat (Z.of_nat b - Z.of_nat a + 1 - 1)) with (b - a) by lia.
  generalize (b - a) as m. intros m. clear. transitivity (map (fun m => a + m) (seq 0 m)); [apply map_ext; intros; lia|]. replace (seq a m) with (seq (a + 0) m) by (f_equal; lia). generalize 0. induction m; intros z; cbn; auto. f_equal. rewrite IHm. f_equal. lia.
Qed.
Lemma designates_range n s sel : designates n s sel -> forall i, In i sel -> i < n.
Proof.
  destruct s as [|a b c|l]; cbn [designates].
  - intros [_ ->] i HI. apply in_seq in HI. lia.
  - apply slice_range.
  - intros [_ F] i HI. induction F as [|z k l sel [H _] F IH]; [destruct HI|]. destruct HI as [<-|HI]; auto.
Qed.
Lemma pick_length v sel : length (pick v sel) = length sel. Proof. apply map_length. Qed.
Lemma take_all v l sel : Forall2 (fun z k => k < length v /\ (z = Z.of_nat k \/ z = (Z.of_nat k - Z.of_nat (length v))%Z)) l sel ->
  fold_right (fun i r => bind (match py_index (length v) i with Some k => Ok (nth k v VNone) | None => Raise Index_error end) (fun x => bind r (fun t => Ok (x :: t)))) (Ok []) l = Ok (pick v sel).
Proof. induction 1 as [|z k l sel H F IH]; cbn; auto. apply py_index_spec in H. rewrite H. cbn. rewrite IH. reflexivity. Qed.
Lemma seq_designates n : Forall2 (fun z k => k < n /\ (z = Z.of_nat k \/ z = (Z.of_nat k - Z.of_nat n)%Z)) (map Z.of_nat (seq 0 n)) (seq 0 n).
Proof. assert (G : forall l, (forall i, In i l -> i < n) -> Forall2 (fun z k => k < n /\ (z = Z.of_nat k \/ z = (Z.of_nat k - Z.of_nat n)%Z)) (map Z.of_nat l) l). { induction l as [|i l IH]; cbn; intros H; constructor; auto. } apply G. intros i H. apply in_seq in H. lia. Qed.

Definition chosen (requested : option (list prop)) : list prop := match requested with None => non_vector_properties | Some l => if has MWs l then l else l ++ [MWs] end.
Lemma chosen_kept requested x : has x (chosen requested) = true <-> kept requested x.
Proof.
  rewrite has_in. destruct requested as [l|]; cbn.
  - destruct (has MWs l) eqn:E; [apply has_in in E; split; auto; intros [H| ->]; auto|]. rewrite in_app_iff. cbn. split; [intros [H|[H|[]]]|intros [H|H]]; auto.
  - split; [intros H ->; now apply non_vector_not|apply non_vector_all].
Qed.
Lemma chosen_MWs requested : has MWs (chosen requested) = true.
Proof. apply chosen_kept. destruct requested; cbn; auto. discriminate. Qed.
(* the keyword arguments a subset passes on *)
Lemma subset_eq p s sel requested get : (forall x, attr p x = Some (get x)) -> (forall x, length (get x) = N p) -> designates (N p) s sel ->
  exists kw, subset p s requested = new_package kw /\ forall x, kw x = if has x (chosen requested) then Some (pick (get x) sel) else None.
Proof.
  intros HA HL HD. unfold subset. fold (chosen requested).
  assert (G : forall l, l <> [] -> Forall2 (fun z k => k < N p /\ (z = Z.of_nat k \/ z = (Z.of_nat k - Z.of_nat (N p))%Z)) l sel ->
    exists kw, (match l with [] => Raise Index_error
      | [i] => bind (collect p (fun _ v => bind (match py_index (length v) i with Some k => Ok (nth k v VNone) | None => Raise Index_error end) (fun x => Ok [x])) (chosen requested) no_kwargs) new_package
      | _ => bind (collect p (fun _ v => fold_right (fun i r => bind (match py_index (length v) i with Some k => Ok (nth k v VNone) | None => Raise Index_error end) (fun x => bind r (fun t => Ok (x :: t)))) (Ok []) l) (chosen requested) no_kwargs) new_package
      end) = new_package kw /\ forall x, kw x = if has x (chosen requested) then Some (pick (get x) sel) else None).
  { intros l NE F. destruct l as [|i [|j l]]; [congruence| |].
    - inversion F as [|? k ? t HK F' EQ1 EQ2]; subst. inversion F'; subst. edestruct (collect_ok p (fun _ v => bind (match py_index (length v) i with Some k => Ok (nth k v VNone) | None => Raise Index_error end) (fun x => Ok [x])) get (fun x => pick (get x) [k]) (chosen requested) no_kwargs HA) as (kw & E & K).
      { intros x _. cbv beta. rewrite HL. apply py_index_spec in HK. rewrite HK. reflexivity. } exists kw. rewrite E. split; auto.
    - edestruct (collect_ok p (fun _ v => fold_right (fun i r => bind (match py_index (length v) i with Some k => Ok (nth k v VNone) | None => Raise Index_error end) (fun x => bind r (fun t => Ok (x :: t)))) (Ok []) (i :: j :: l)) get (fun x => pick (get x) sel) (chosen requested) no_kwargs HA) as (kw & E & K).
      { intros x _. cbv beta. rewrite (take_all (get x) (i :: j :: l) sel) by (rewrite HL; exact F). reflexivity. } exists kw. rewrite E. split; auto. }
  destruct s as [|a b c|l]; cbn [designates] in HD.
  - destruct HD as [HP ->]. destruct (G (map Z.of_nat (seq 0 (N p)))) as (kw & E & K); [destruct (N p); [lia|discriminate]|apply seq_designates|]. exists kw. split; auto.
  - destruct (collect_ok p (fun _ v => match slice_indices a b c (length v) with Some s => Ok (pick v s) | None => Raise Value_error end) get (fun x => pick (get x) sel) (chosen requested) no_kwargs HA) as (kw & E & K).
    { intros x _. cbv beta. rewrite HL, HD. reflexivity. } exists kw. rewrite E. split; auto.
  - destruct HD as [NE F]. destruct (G l NE F) as (kw & E & K). exists kw. split; auto.
Qed.

(* The j-th component of a subset is the component at the j-th requested position, for every property that is kept; the others are empty. *)
Theorem C45_subset p s sel requested : reachable p -> designates (N p) s sel ->
  exists q, subset p s requested = Ok q /\ reachable q /\ N q = length sel /\
  forall x j, (kept requested x -> j < length sel -> component q j x = component p (nth j sel 0) x) /\ (~ kept requested x -> component q j x = VNone).
Proof.
  intros HR HD. pose proof (reachable_consistent p HR) as HC. destruct HR as (kw0 & HL0 & E0). destruct (reachable_new _ _ _ HL0 E0) as (HR & _ & HA).
  destruct (subset_eq p s sel requested _ HA ltac:(intros; now apply filled_length) HD) as (kw & ES & K).
  assert (L : lists_of (length sel) kw). { split; [eexists; rewrite K, chosen_MWs; reflexivity|]. intros x l. rewrite K. destruct (has x _); [|discriminate]. intros [= <-]. apply pick_length. }
  destruct (C45_construct _ _ L) as (q & EQ & RQ & _ & NQ & CQ). exists q. rewrite ES. splits; auto. intros x j. rewrite CQ, K. split.
  - intros HK HJ. apply chosen_kept in HK. rewrite HK. unfold component. rewrite HA. unfold pick. rewrite (nth_indep _ VNone (nth 0 (filled (N p) kw0 x) VNone)) by (rewrite map_length; auto). now rewrite (map_nth (fun i => nth i _ VNone)).
  - intros HK. destruct (has x (chosen requested)) eqn:E; auto. apply chosen_kept in E. contradiction.
Qed.
(* positions that do not exist raise *)
Theorem C45_subset_fails p requested : reachable p ->
  (forall l z, In z l -> (forall k, py_index (N p) z <> Some k) -> subset p (Idxs l) requested = Raise Index_error) /\
  subset p (Idxs []) requested = Raise Index_error /\ (forall a b, subset p (Slice a b (Some 0%Z)) requested = Raise Value_error).
Proof.
  intros HR. destruct HR as (kw0 & HL0 & E0). destruct (reachable_new _ _ _ HL0 E0) as (HR & _ & HA). assert (HL : forall x, length (filled (N p) kw0 x) = N p) by (intros; now apply filled_length).
  assert (IM : exists x, In x (chosen requested)) by (exists MWs; apply has_in, chosen_MWs). destruct IM as [x0 IM].
  splits.
  - intros l z HI HZ. unfold subset. fold (chosen requested). assert (PN : py_index (N p) z = None) by (destruct (py_index (N p) z); auto; exfalso; eapply HZ; reflexivity).
    assert (T : forall v, length v = N p -> fold_right (fun i r => bind (match py_index (length v) i with Some k => Ok (nth k v VNone) | None => Raise Index_error end) (fun x => bind r (fun t => Ok (x :: t)))) (Ok []) l = Raise Index_error).
    { intros v Hv. rewrite Hv. clear - HI PN. induction l as [|y l IH]; [destruct HI|]. cbn. destruct HI as [->|HI]; [now rewrite PN|]. destruct (py_index (N p) y); cbn; auto. now rewrite IH. }
    destruct l as [|i [|j l]]; [reflexivity| |].
    + destruct HI as [->|[]]. rewrite (collect_fail p _ _ Index_error _ _ HA); auto; cbv beta; [intros x; rewrite HL, PN; right; reflexivity|exists x0; rewrite HL, PN; auto].
    + rewrite (collect_fail p _ _ Index_error _ _ HA); [reflexivity|intros x; right; apply T, HL|exists x0; split; [exact IM|apply T, HL]].
  - reflexivity.
  - intros a b. unfold subset. fold (chosen requested). rewrite (collect_fail p _ _ Value_error _ _ HA); [reflexivity|intros x; right; reflexivity|exists x0; auto].
Qed.

(* ---- addition ---- *)
Theorem C45_add a b : reachable a -> reachable b -> exists q, add_packages a b = Ok q /\ reachable q /\ N q = N a + N b /\
  forall x i, component q i x = if i <? N a then component a i x else component b (i - N a) x.
Proof.
  intros (ka & La & Ea) (kb & Lb & Eb). destruct (reachable_new _ _ _ La Ea) as (_ & _ & A). destruct (reachable_new _ _ _ Lb Eb) as (_ & _ & B).
  unfold add_packages. destruct (collect_ok a (fun x v => match attr b x with Some u => Ok (v ++ u) | None => Raise Key_error end) _ (fun x => filled (N a) ka x ++ filled (N b) kb x) properties no_kwargs A) as (kw & E & K).
  { intros x _. now rewrite B. }
  rewrite E. cbn [bind]. assert (K' : forall x, kw x = Some (filled (N a) ka x ++ filled (N b) kb x)) by (intros x; rewrite K; assert (has x properties = true) as -> by (apply has_in, properties_all); auto).
  assert (L : lists_of (N a + N b) kw). { split; [eexists; apply K'|]. intros x l. rewrite K'. intros [= <-]. rewrite app_length, !filled_length; auto. }
  destruct (C45_construct _ _ L) as (q & EQ & RQ & _ & NQ & CQ). exists q. splits; auto. intros x i. rewrite CQ, K'. unfold component. rewrite A, B.
  destruct (Nat.ltb_spec i (N a)); [apply app_nth1; now rewrite filled_length|]. rewrite app_nth2 by (rewrite filled_length; auto). now rewrite filled_length.
Qed.
(* the first and last components of a sum give the two packages back, but for the atom fractions *)
Theorem C45_add_subset a b q : reachable a -> reachable b -> 0 < N a -> add_packages a b = Ok q ->
  exists a', subset q (Slice None (Some (Z.of_nat (N a))) None) None = Ok a' /\ N a' = N a /\ forall x i, x <> atom_fractions -> i < N a -> component a' i x = component a i x.
Proof.
  intros HA HB HP E. destruct (C45_add a b HA HB) as (q' & E' & RQ & NQ & CQ). rewrite E in E'. injection E' as <-.
  destruct (C45_subset q (Slice None (Some (Z.of_nat (N a))) None) (seq 0 (N a - 0)) None RQ) as (a' & E1 & _ & N1 & C1).
  { cbn [designates]. transitivity (slice_indices (Some (Z.of_nat 0)) (Some (Z.of_nat (N a))) None (N q)); [unfold slice_indices; cbn; rewrite (Z.min_l 0 (Z.of_nat (N q))) by lia; reflexivity|]. apply (C45_plain_slice 0 (N a) (N q)). lia. }
  exists a'. rewrite seq_length in N1. splits; auto; [lia|]. intros x i Hx Hi. destruct (C1 x i) as [C _]. rewrite C; cbn [kept]; auto; [|rewrite seq_length; lia]. rewrite seq_nth by lia. cbn. rewrite CQ. destruct (Nat.ltb_spec i (N a)); auto; lia.
Qed.
Theorem C45_with_new_constants p kw : reachable p -> (forall x l, kw x = Some l -> length l = N p) -> exists q, with_new_constants p kw = Ok q /\ reachable q /\ N q = N p /\
  forall x i, component q i x = match kw x with Some l => nth i l VNone | None => if prop_eq_dec x atom_fractions then VNone else component p i x end.
Proof.
  intros (k0 & L0 & E0) HK. destruct (reachable_new _ _ _ L0 E0) as (_ & _ & A). unfold with_new_constants.
  destruct (collect_ok p (fun _ v => Ok v) _ (fun x => filled (N p) k0 x) non_vector_properties no_kwargs A ltac:(reflexivity)) as (k1 & E & K). rewrite E. cbn [bind].
  assert (L : lists_of (N p) (fun x => match kw x with Some v => Some v | None => k1 x end)).
  { split. destruct (kw MWs) eqn:EM; [eauto|]. rewrite K. eexists. reflexivity. intros x l. cbv beta. destruct (kw x) eqn:EX; [intros [= <-]; eauto|]. rewrite K. destruct (has x _); [|discriminate]. intros [= <-]. now apply filled_length. }
  destruct (C45_construct _ _ L) as (q & EQ & RQ & _ & NQ & CQ). exists q. splits; auto. intros x i. rewrite CQ. cbv beta. destruct (kw x); auto. rewrite K. destruct (prop_eq_dec x atom_fractions) as [->|N].
  - assert (has atom_fractions non_vector_properties = false) as -> by (apply has_out, non_vector_not). reflexivity.
  - assert (has x non_vector_properties = true) as -> by (now apply has_in, non_vector_all). unfold component. now rewrite A.
Qed.

(* ---- lookup of a component ---- *)
Lemma last_index_spec k l : match last_index k l with Some i => i < length l /\ is_key k (nth i l VNone) = true /\ forall j, i < j < length l -> is_key k (nth j l VNone) = false | None => forall j, j < length l -> is_key k (nth j l VNone) = false end.
Proof.
  induction l as [|v l IH]; cbn; [intros; lia|]. destruct (last_index k l) as [i|].
  - destruct IH as (H1 & H2 & H3). splits; auto; [lia|]. intros [|j] Hj; [lia|]. apply H3; lia.
  - destruct (is_key k v) eqn:E; [splits; auto; try lia; intros [|j] Hj; [lia|apply IH; lia]|]. intros [|j] Hj; auto. apply IH; lia.
Qed.
(* an identifier that occurs once is found at its component; one that does not occur raises KeyError (CAS) or ValueError (the others) *)
Definition lookup (x : prop) (k : key) (p : package) : option (res nat) :=
  match x with
  | CASs => Some (compound_index p (Some k) None None None None None) | names => Some (compound_index p None (Some k) None None None None) | smiless => Some (compound_index p None None (Some k) None None None)
  | InChIs => Some (compound_index p None None None (Some k) None None) | InChI_Keys => Some (compound_index p None None None None (Some k) None) | PubChems => Some (compound_index p None None None None None (Some k)) | _ => None end.
Theorem C45_compound_index p x k r : reachable p -> lookup x k p = Some r ->
  (forall i, i < N p -> is_key k (component p i x) = true -> (forall j, j < N p -> is_key k (component p j x) = true -> j = i) -> r = Ok i) /\
  (forall i, r = Ok i -> i < N p /\ is_key k (component p i x) = true) /\
  ((forall i, i < N p -> is_key k (component p i x) = false) -> r = Raise (if prop_eq_dec x CASs then Key_error else Value_error)).
Proof.
  intros (kw & L & E) HL. destruct (reachable_new _ _ _ L E) as (_ & _ & A). unfold component. rewrite A.
  assert (G : forall r (o : option nat) l e, length l = N p -> match o with Some i => i < length l /\ is_key k (nth i l VNone) = true | None => forall j, j < length l -> is_key k (nth j l VNone) = false end ->
    r = match o with Some i => Ok i | None => Raise e end -> (forall i, i < N p -> is_key k (nth i l VNone) = true -> (forall j, j < N p -> is_key k (nth j l VNone) = true -> j = i) -> r = Ok i) /\ (forall i, r = Ok i -> i < N p /\ is_key k (nth i l VNone) = true) /\ ((forall i, i < N p -> is_key k (nth i l VNone) = false) -> r = Raise e)).
  { intros r0 o l e Hl HO ->. rewrite Hl in HO. destruct o as [i|]; splits.
    - intros j H1 H2 H3. f_equal. apply H3; tauto.
    - intros j [= <-]. exact HO.
    - intros H. destruct HO as [H1 H2]. rewrite H in H2 by auto. discriminate.
    - intros i H1 H2. rewrite HO in H2 by auto. discriminate.
    - discriminate.
    - reflexivity. }
  assert (FX : forall l, match first_index k l with Some i => i < length l /\ is_key k (nth i l VNone) = true | None => forall j, j < length l -> is_key k (nth j l VNone) = false end) by (intros l; pose proof (first_index_spec k l) as F; destruct (first_index k l); intuition).
  assert (LX : forall l, match last_index k l with Some i => i < length l /\ is_key k (nth i l VNone) = true | None => forall j, j < length l -> is_key k (nth j l VNone) = false end) by (intros l; pose proof (last_index_spec k l) as F; destruct (last_index k l); intuition).
  destruct x; try discriminate HL; injection HL as <-; unfold compound_index; rewrite A;
    first [apply (G _ (last_index k (filled (N p) kw CASs))); [apply filled_length; auto|apply LX|reflexivity]|eapply (G _ (first_index k _)); [apply filled_length; auto|apply FX|reflexivity]].
Qed.

(* ---- correlations ---- *)
Lemma corr_assigned_id x : corr_assigned x = x. Proof. destruct x; reflexivity. Qed.
Lemma mixture_assigned_id x : mixture_assigned x = x. Proof. destruct x; reflexivity. Qed.
Definition hasc (x : corr) (l : list corr) : bool := if in_dec corr_eq_dec x l then true else false.
Lemma hasc_in x l : hasc x l = true <-> In x l.
Proof. unfold hasc. destruct (in_dec _ _ _); split; intros; auto; discriminate. Qed.
Lemma hasc_out x l : hasc x l = false <-> ~ In x l.
Proof. rewrite <- hasc_in. destruct (hasc x l); split; intros; try discriminate; auto. exfalso; auto. Qed.
Lemma pure_all x : In x pure_correlations. Proof. apply hasc_in. destruct x; reflexivity. Qed.
Lemma steps_all x : In x (map fst build_steps). Proof. apply hasc_in. destruct x; reflexivity. Qed.
Lemma traverse_ok {A B} (f : A -> res B) g l : (forall x, In x l -> f x = Ok (g x)) -> traverse f l = Ok (map g l).
Proof. induction l as [|x l IH]; intros H; cbn; auto. rewrite H by (left; auto). cbn. rewrite IH by (intros; apply H; right; auto). reflexivity. Qed.
Definition pickc (l : list obj) (sel : list nat) : list obj := map (fun i => nth i l (Given 0)) sel.

Definition argv (c : package) (k : ckw) (i : nat) (s : source) : arg :=
  match s with
  | From_constants x => AValue (component c i x)
  | From_correlation x => AObject (match k x with Some l => nth i l (Given 0) | None => Given 0 end)
  | From_nothing => ANone
  | From_user_database cls => AUser cls (component c i CASs) end.
Definition builtv (c : package) (k : ckw) (cls : string) (args : list (string * source)) (i : nat) : obj := Built cls (map (fun a => (fst a, argv c k i (snd a))) args).
Fixpoint build_allv (c : package) (steps : list (corr * (string * list (string * source)))) (k : ckw) : ckw :=
  match steps with
  | [] => k
  | (x, (cls, args)) :: steps => match k x with Some _ => build_allv c steps k | None => build_allv c steps (set_corr k x (map (builtv c k cls args) (seq 0 (N c)))) end
  end.
Definition arg_ok (have : list corr) (a : string * source) : bool := match snd a with From_constants x => negb (has x [atom_fractions]) | From_correlation x => hasc x have | _ => true end.
Fixpoint deps_ok (steps : list (corr * (string * list (string * source)))) (have : list corr) : bool :=
  match steps with [] => true | (x, (_, args)) :: steps => forallb (arg_ok have) args && deps_ok steps (x :: have) end.
Lemma build_steps_ok : deps_ok build_steps [] = true. Proof. vm_compute. reflexivity. Qed.
Definition lists_n (n : nat) (k : ckw) : Prop := forall x l, k x = Some l -> length l = n.
Lemma at_index_component c i x : consistent c -> i < N c -> at_index (attr c x) i = Ok (component c i x).
Proof. intros H Hi. unfold at_index, component. destruct (H x) as (l & E & L). rewrite E. rewrite (nth_error_nth' l VNone) by lia. reflexivity. Qed.
Lemma pure_arg_ok c k have i a : consistent c -> i < N c -> lists_n (N c) k -> (forall x, In x have -> k x <> None) -> arg_ok have a = true -> pure_arg c k i (snd a) = Ok (argv c k i (snd a)).
Proof.
  intros HC Hi HL HH HA. unfold arg_ok in HA. destruct (snd a) as [x|x| |cls]; cbn [pure_arg argv]; auto.
  - rewrite at_index_component by auto. reflexivity.
  - apply hasc_in in HA. specialize (HH x HA). destruct (k x) as [l|] eqn:E; [|congruence]. cbn. rewrite (nth_error_nth' l (Given 0)) by (rewrite (HL _ _ E); auto). reflexivity.
  - rewrite at_index_component by auto. reflexivity.
Qed.
Lemma build_ok c k have cls args i : consistent c -> i < N c -> lists_n (N c) k -> (forall x, In x have -> k x <> None) -> forallb (arg_ok have) args = true -> build c k cls args i = Ok (builtv c k cls args i).
Proof.
  intros HC Hi HL HH HA. unfold build. rewrite forallb_forall in HA. rewrite (traverse_ok _ (fun a => (fst a, argv c k i (snd a)))); [reflexivity|]. intros a Ha. rewrite (pure_arg_ok c k have) by auto. reflexivity.
Qed.
Lemma set_corr_lists n k x l : lists_n n k -> length l = n -> lists_n n (set_corr k x l).
Proof. intros H L y m. unfold set_corr. destruct (corr_eq_dec y x); [intros [= <-]; auto|apply H]. Qed.
Lemma build_all_ok c steps : consistent c -> forall k have, lists_n (N c) k -> (forall x, In x have -> k x <> None) -> deps_ok steps have = true ->
  build_all c steps k = Ok (build_allv c steps k) /\ lists_n (N c) (build_allv c steps k) /\ (forall x l, k x = Some l -> build_allv c steps k x = Some l) /\ (forall x, In x (map fst steps) -> build_allv c steps k x <> None).
Proof.
  intros HC. induction steps as [|[x [cls args]] steps IH]; intros k have HL HH HD; cbn [build_all build_allv deps_ok map fst] in *.
  - splits; auto.
  - apply andb_prop in HD as [HD1 HD2]. destruct (k x) as [l|] eqn:E.
    + destruct (IH k (x :: have) HL) as (I1 & I2 & I3 & I4); auto. { intros y [<-|Hy]; [congruence|auto]. } splits; auto. intros y [<-|Hy]; auto. rewrite (I3 _ _ E). discriminate.
    + rewrite (traverse_ok _ (builtv c k cls args)) by (intros i Hi; apply in_seq in Hi; apply (build_ok c k have); auto; lia). cbn [bind].
      set (k' := set_corr k x (map (builtv c k cls args) (seq 0 (N c)))).
      assert (EX : k' x = Some (map (builtv c k cls args) (seq 0 (N c)))) by (unfold k', set_corr; destruct (corr_eq_dec x x); congruence).
      destruct (IH k' (x :: have)) as (I1 & I2 & I3 & I4); auto.
      { apply set_corr_lists; auto. now rewrite map_length, seq_length. }
      { intros y [<-|Hy]; [congruence|]. unfold k', set_corr. destruct (corr_eq_dec y x); [discriminate|auto]. }
      splits; auto.
      * intros y m Hy. apply I3. unfold k', set_corr. destruct (corr_eq_dec y x); congruence.
      * intros y [<-|Hy]; auto. rewrite (I3 _ _ EX). discriminate.
Qed.
Lemma new_correlations_ok c k m skip : reachable c -> lists_n (N c) k -> exists q, new_correlations c k m skip = Ok q /\ constants q = c /\ skip_missing q = skip /\ reachable_correlations q /\
  (forall x, pure q x = if skip then k x else build_allv c build_steps k x) /\ (forall x, mix q x = if skip then m x else build_mixtures c (build_allv c build_steps k) mixture_steps m x).
Proof.
  intros HR HL. pose proof (reachable_consistent _ HR) as HC. unfold new_correlations. destruct (build_all_ok c build_steps HC k [] HL ltac:(intros ? []) build_steps_ok) as (E & _).
  destruct skip; cbn [bind]; [|rewrite E; cbn [bind]]; eexists; (split; [reflexivity|]); cbn [constants skip_missing pure mix]; splits; auto; try (intros x; rewrite ?corr_assigned_id, ?mixture_assigned_id; auto; fail).
  - exists k, m. cbn. splits; auto.
  - exists k, m. cbn [constants skip_missing]. unfold new_correlations. rewrite E. splits; auto.
Qed.
Lemma reachable_lists p : reachable_correlations p -> lists_n (N (constants p)) (pure p) /\ (skip_missing p = false -> forall x, pure p x <> None).
Proof.
  intros (k & m & HR & HL & E). pose proof (reachable_consistent _ HR) as HC. destruct (new_correlations_ok (constants p) k m (skip_missing p) HR HL) as (q & E' & _ & _ & _ & P & _). rewrite E in E'. injection E' as <-.
  destruct (build_all_ok (constants p) build_steps HC k [] HL ltac:(intros ? []) build_steps_ok) as (_ & I2 & _ & I4). split.
  - intros x l. rewrite P. destruct (skip_missing p); [apply HL|apply I2].
  - intros SF y. rewrite P, SF. apply I4, steps_all.
Qed.
Lemma collect_corr_ok p f g cs : (forall x l, pure p x = Some l -> f l = Ok (g l)) -> forall new, exists k, collect_corr p f cs new = Ok k /\ forall x, k x = if hasc x cs then match pure p x with Some l => Some (g l) | None => new x end else new x.
Proof.
  intros HF. induction cs as [|y cs IH]; intros new; cbn [collect_corr].
  - exists new. split; auto.
  - destruct (pure p y) as [l|] eqn:EY.
    + rewrite (HF _ _ EY). cbn [bind]. destruct (IH (set_corr new y (g l))) as (k & E & K). exists k. split; auto. intros x. rewrite K. unfold set_corr.
      destruct (corr_eq_dec x y) as [->|NE].
      * rewrite EY. assert (hasc y (y :: cs) = true) as -> by (apply hasc_in; left; auto). destruct (hasc y cs); auto.
      * destruct (hasc x cs) eqn:E1; [assert (hasc x (y :: cs) = true) as -> by (apply hasc_in; right; now apply hasc_in); auto|].
        assert (hasc x (y :: cs) = false) as ->; auto. apply hasc_out. intros [->|I]; auto. apply hasc_out in E1. auto.
    + destruct (IH new) as (k & E & K). exists k. split; auto. intros x. rewrite K. destruct (corr_eq_dec x y) as [->|NE].
      * rewrite EY. destruct (hasc y cs), (hasc y (y :: cs)); auto.
      * destruct (hasc x cs) eqn:E1; [assert (hasc x (y :: cs) = true) as -> by (apply hasc_in; right; now apply hasc_in); auto|].
        assert (hasc x (y :: cs) = false) as ->; auto. apply hasc_out. intros [->|I]; auto. apply hasc_out in E1. auto.
Qed.
Definition at_indexes (idxs : selector) (v : list obj) := match idxs with
  | All => Raise Type_error
  | Slice a b c => match slice_indices a b c (length v) with Some s => Ok (map (fun i => nth i v (Given 0)) s) | None => Raise Value_error end
  | Idxs l => traverse (fun i => match py_index (length v) i with Some k => Ok (nth k v (Given 0)) | None => Raise Index_error end) l end.
Lemma at_indexes_ok s v sel : s <> All -> designates (length v) s sel -> at_indexes s v = Ok (pickc v sel).
Proof.
  intros NA D. destruct s as [|a b c|l]; [congruence| |]; cbn [designates at_indexes] in *.
  - rewrite D. reflexivity.
  - destruct D as [_ F]. clear NA. induction F as [|z k l sel H F IH]; cbn; auto. apply py_index_spec in H. rewrite H. cbn. rewrite IH. reflexivity.
Qed.
Lemma pickc_nth l sel j n : length l = n -> (forall i, In i sel -> i < n) -> j < length sel -> nth_error (pickc l sel) j = nth_error l (nth j sel 0).
Proof.
  intros L H Hj. rewrite (nth_error_nth' (pickc l sel) (Given 0)) by (unfold pickc; now rewrite map_length). rewrite (nth_error_nth' l (Given 0)) by (rewrite L; apply H, nth_In; auto). f_equal.
  unfold pickc. rewrite (nth_indep _ (Given 0) (nth 0 l (Given 0))) by (rewrite map_length; auto). now rewrite (map_nth (fun i => nth i l (Given 0))).
Qed.
Lemma subset_correlations_ok p s sel : reachable_correlations p -> s <> All -> designates (N (constants p)) s sel ->
  exists q c k, subset (constants p) s None = Ok c /\ subset_correlations p s = Ok q /\ new_correlations c k (fun _ => None) (skip_missing p) = Ok q /\ (forall x, k x = option_map (fun l => pickc l sel) (pure p x)).
Proof.
  intros HP NA D. destruct (reachable_lists p HP) as [PL PN]. pose proof HP as (k0 & m0 & HR & _ & _).
  destruct (C45_subset _ s sel None HR D) as (c & EC & RC & NC & CC). destruct (collect_corr_ok p (at_indexes s) (fun l => pickc l sel) pure_correlations) with (new := fun _ : corr => @None (list obj)) as (k & EK & K).
  { intros x l Hx. apply at_indexes_ok; auto. now rewrite (PL _ _ Hx). }
  assert (K' : forall x, k x = option_map (fun l => pickc l sel) (pure p x)) by (intros x; rewrite K; assert (hasc x pure_correlations = true) as -> by (apply hasc_in, pure_all); destruct (pure p x); auto).
  destruct (new_correlations_ok c k (fun _ => None) (skip_missing p) RC) as (q & EQ & _). { intros x l. rewrite K'. destruct (pure p x) eqn:E; [|discriminate]. intros [= <-]. unfold pickc. rewrite map_length. auto. }
  exists q, c, k. splits; auto. unfold subset_correlations. rewrite EC. cbn [bind]. fold (at_indexes s). rewrite EK. cbn [bind]. exact EQ.
Qed.
(* the objects of the j-th component of a subset are those of the component at the j-th requested position *)
Theorem C45_correlations_subset p s sel : reachable_correlations p -> s <> All -> designates (N (constants p)) s sel ->
  exists q, subset_correlations p s = Ok q /\ reachable_correlations q /\ skip_missing q = skip_missing p /\ subset (constants p) s None = Ok (constants q) /\
  forall x, (pure q x = None <-> pure p x = None) /\ forall j, j < length sel -> object_at q x j = object_at p x (nth j sel 0).
Proof.
  intros HP NA D. destruct (reachable_lists p HP) as [PL PN]. pose proof HP as (k0 & m0 & HR & _ & _).
  destruct (subset_correlations_ok p s sel HP NA D) as (q & c & k & EC & EQ & EN & K). destruct (C45_subset _ s sel None HR D) as (c' & EC' & RC & NC & CC). rewrite EC in EC'. injection EC' as <-.
  assert (KL : lists_n (N c) k). { intros x l. rewrite K. destruct (pure p x) eqn:E; [|discriminate]. intros [= <-]. unfold pickc. rewrite map_length. auto. }
  destruct (new_correlations_ok c k (fun _ => None) (skip_missing p) RC KL) as (q' & EQ' & CQ & SQ & RQ & PQ & MQ). rewrite EN in EQ'. injection EQ' as <-.
  exists q. splits; auto; [now rewrite CQ|].
  assert (PE : forall x, pure q x = option_map (fun l => pickc l sel) (pure p x)).
  { intros x. rewrite PQ. destruct (skip_missing p) eqn:S; [apply K|]. destruct (build_all_ok c build_steps (reachable_consistent _ RC) k [] KL ltac:(intros ? []) build_steps_ok) as (_ & _ & I3 & _).
    specialize (PN eq_refl x). destruct (pure p x) as [l|] eqn:E; [|congruence]. cbn [option_map]. apply I3. rewrite K, E. reflexivity. }
  intros x. rewrite PE. split; [destruct (pure p x); split; try discriminate; auto|]. intros j Hj. unfold object_at. rewrite PE. destruct (pure p x) as [l|] eqn:E; auto. cbn [option_map]. apply (pickc_nth l sel j (N (constants p)) (PL _ _ E) (designates_range _ _ _ D) Hj).
Qed.

(* ---- building a package of property objects: what is given is kept, and what is missing is built, each object for its own component.
   The keyword of an argument says what it must be; two keywords are known exceptions: the liquid volume at the melting point serves for the one at the
   triple point, and "mug" gets the liquid viscosity (C45_gas_viscosity_refuted) *)
Open Scope string_scope.
Definition keyword_value (c : package) (p : correlations) (i : nat) (kw : string) (a : arg) : Prop :=
  let const x := a = AValue (component c i x) in let object x := exists o, object_at p x i = Some o /\ a = AObject o in
  if kw =? "CASRN" then const CASs else if kw =? "MW" then const MWs else if kw =? "Tb" then const Tbs else if kw =? "Tc" then const Tcs else if kw =? "Tm" then const Tms else
  if kw =? "Tt" then const Tts else if kw =? "Pc" then const Pcs else if kw =? "Pt" then const Pts else if kw =? "Vc" then const Vcs else if kw =? "Zc" then const Zcs else
  if kw =? "omega" then const omegas else if kw =? "dipole" then const dipoles else if kw =? "StielPolar" then const StielPolars else if kw =? "similarity_variable" then const similarity_variables else
  if kw =? "Hfus" then const Hfus_Tms else if kw =? "Hsub_t" then const Hsub_Tts else if kw =? "Hvap_Tb" then const Hvap_Tbs else if kw =? "Vml_Tt" then const Vml_Tms else
  if kw =? "Psat" then object VaporPressures else if kw =? "Cpg" then object HeatCapacityGases else if kw =? "Cpgm" then object HeatCapacityGases else if kw =? "Cpl" then object HeatCapacityLiquids else
  if kw =? "Cps" then object HeatCapacitySolids else if kw =? "Hvap" then object EnthalpyVaporizations else if kw =? "Vml" then object VolumeLiquids else if kw =? "Vmg" then object VolumeGases else
  if kw =? "mug" then object ViscosityLiquids else if kw =? "eos" then a = ANone else if kw =? "**" then exists cls, a = AUser cls (component c i CASs) else False.
Definition mixture_keyword_value (c : package) (p : correlations) (kw : string) (a : arg) : Prop :=
  let consts x := exists l, attr c x = Some l /\ a = AValues l in let objects x := exists l, pure p x = Some l /\ a = AObjects l in
  if kw =? "CASs" then consts CASs else if kw =? "MWs" then consts MWs else if kw =? "Tcs" then consts Tcs else if kw =? "Pcs" then consts Pcs else if kw =? "Vcs" then consts Vcs else
  if kw =? "Zcs" then consts Zcs else if kw =? "omegas" then consts omegas else if kw =? "Tbs" then consts Tbs else if kw =? "molecular_diameters" then consts molecular_diameters else
  if kw =? "Stockmayers" then consts Stockmayers else if kw =? "VolumeSolids" then objects VolumeSolids else if kw =? "VolumeLiquids" then objects VolumeLiquids else
  if kw =? "VolumeGases" then objects VolumeGases else if kw =? "HeatCapacitySolids" then objects HeatCapacitySolids else if kw =? "HeatCapacityLiquids" then objects HeatCapacityLiquids else
  if kw =? "HeatCapacityGases" then objects HeatCapacityGases else if kw =? "ViscosityLiquids" then objects ViscosityLiquids else if kw =? "ViscosityGases" then objects ViscosityGases else
  if kw =? "ThermalConductivityLiquids" then objects ThermalConductivityLiquids else if kw =? "ThermalConductivityGases" then objects ThermalConductivityGases else
  if kw =? "SurfaceTensions" then objects SurfaceTensions else if kw =? "eos" then a = ANone else False.
(* the class of object each property gets *)
Definition class_of (x : corr) : string := match x with
  | VaporPressures => "VaporPressure" | VolumeLiquids => "VolumeLiquid" | VolumeGases => "VolumeGas" | VolumeSolids => "VolumeSolid" | HeatCapacityGases => "HeatCapacityGas"
  | HeatCapacitySolids => "HeatCapacitySolid" | HeatCapacityLiquids => "HeatCapacityLiquid" | EnthalpyVaporizations => "EnthalpyVaporization" | EnthalpySublimations => "EnthalpySublimation"
  | SublimationPressures => "SublimationPressure" | PermittivityLiquids => "PermittivityLiquid" | ViscosityLiquids => "ViscosityLiquid" | ViscosityGases => "ViscosityGas"
  | ThermalConductivityLiquids => "ThermalConductivityLiquid" | ThermalConductivityGases => "ThermalConductivityGas" | ThermalConductivitySolids => "ThermalConductivitySolid" | SurfaceTensions => "SurfaceTension" end.
Definition mixture_class_of (x : mixture) : string := match x with
  | VolumeGasMixture => "VolumeGasMixture" | VolumeLiquidMixture => "VolumeLiquidMixture" | VolumeSolidMixture => "VolumeSolidMixture" | HeatCapacityGasMixture => "HeatCapacityGasMixture"
  | HeatCapacityLiquidMixture => "HeatCapacityLiquidMixture" | HeatCapacitySolidMixture => "HeatCapacitySolidMixture" | ViscosityGasMixture => "ViscosityGasMixture"
  | ViscosityLiquidMixture => "ViscosityLiquidMixture" | ThermalConductivityGasMixture => "ThermalConductivityGasMixture" | ThermalConductivityLiquidMixture => "ThermalConductivityLiquidMixture"
  | SurfaceTensionMixture => "SurfaceTensionMixture" end.
Close Scope string_scope.
Lemma build_allv_keep c steps : forall k x, k x <> None -> build_allv c steps k x = k x.
Proof.
  induction steps as [|[y [cls args]] steps IH]; intros k x H; cbn [build_allv]; auto. destruct (k y) eqn:E; [now apply IH|].
  rewrite IH; unfold set_corr; destruct (corr_eq_dec x y); congruence.
Qed.
Lemma build_allv_out c steps : forall k x, ~ In x (map fst steps) -> build_allv c steps k x = k x.
Proof.
  induction steps as [|[y [cls args]] steps IH]; intros k x H; cbn [build_allv map fst] in *; auto. destruct (k y) eqn:E; [apply IH; intuition|].
  rewrite IH by intuition. unfold set_corr. destruct (corr_eq_dec x y); auto. subst. exfalso. intuition.
Qed.
Lemma build_allv_built c steps : NoDup (map fst steps) -> forall have k, deps_ok steps have = true -> (forall x, In x have -> k x <> None) ->
  forall x cls args, In (x, (cls, args)) steps -> k x = None -> build_allv c steps k x = Some (map (builtv c (build_allv c steps k) cls args) (seq 0 (N c))).
Proof.
  induction steps as [|[y [cls' args']] steps IH]; intros ND have k HD HH x cls args HI HN; [destruct HI|]. cbn [build_allv deps_ok map fst] in *. apply andb_prop in HD as [HD1 HD2]. inversion ND as [|? ? NI ND']; subst.
  destruct HI as [E|HI].
  - injection E as <- <- <-. rewrite HN. rewrite build_allv_out by auto. unfold set_corr at 1. destruct (corr_eq_dec y y); [|congruence]. f_equal. apply map_ext_in. intros i Hi. unfold builtv. f_equal. apply map_ext_in. intros a Ha. f_equal.
    rewrite forallb_forall in HD1. specialize (HD1 a Ha). unfold arg_ok in HD1. destruct (snd a) as [z|z| |u]; cbn [argv]; auto. apply hasc_in in HD1. specialize (HH z HD1). rewrite build_allv_keep; unfold set_corr; destruct (corr_eq_dec z y); congruence.
  - destruct (k y) as [l|] eqn:E.
    + apply (IH ND' (y :: have)); auto. intros z [<-|Hz]; [congruence|auto].
    + apply (IH ND' (y :: have)); auto.
      * intros z [<-|Hz]; unfold set_corr; destruct (corr_eq_dec _ y); try congruence. auto.
      * unfold set_corr. destruct (corr_eq_dec x y); auto. subst. exfalso. apply NI. change y with (fst (y, (cls, args))). now apply in_map.
Qed.
Lemma build_mixtures_keep c k steps : forall m x, m x <> None -> build_mixtures c k steps m x = m x.
Proof.
  induction steps as [|[y [cls args]] steps IH]; intros m x H; cbn [build_mixtures]; auto. destruct (m y) eqn:E; [now apply IH|].
  rewrite IH; unfold set_mix; destruct (mixture_eq_dec x y); congruence.
Qed.
Lemma build_mixtures_built c k steps : forall m x cls args, NoDup (map fst steps) -> In (x, (cls, args)) steps -> m x = None ->
  build_mixtures c k steps m x = Some (Built cls (map (fun a => (fst a, mixture_arg c k (snd a))) args)).
Proof.
  induction steps as [|[y [cls' args']] steps IH]; intros m x cls args ND HI HN; [destruct HI|]. cbn [build_mixtures map fst] in *. inversion ND as [|? ? NI ND']; subst.
  destruct HI as [E|HI].
  - injection E as <- <- <-. rewrite HN. rewrite build_mixtures_keep; unfold set_mix; destruct (mixture_eq_dec y y); congruence.
  - destruct (m y) eqn:E; [now apply IH|]. apply IH; auto. unfold set_mix. destruct (mixture_eq_dec x y); auto. subst. exfalso. apply NI. change y with (fst (y, (cls, args))). now apply in_map.
Qed.
Lemma source_eq_dec (a b : source) : {a = b} + {a <> b}. Proof. decide equality; [apply prop_eq_dec|apply corr_eq_dec|apply string_dec]. Defined.
Definition same (a b : source) : bool := if source_eq_dec a b then true else false.
Lemma same_eq a b : same a b = true -> a = b. Proof. unfold same. destruct (source_eq_dec a b); [auto|discriminate]. Qed.
Definition keyword_source (kw : string) (s : source) : bool :=
  if (kw =? "CASRN")%string then same s (From_constants CASs) else
  if (kw =? "MW")%string then same s (From_constants MWs) else
  if (kw =? "Tb")%string then same s (From_constants Tbs) else
  if (kw =? "Tc")%string then same s (From_constants Tcs) else
  if (kw =? "Tm")%string then same s (From_constants Tms) else
  if (kw =? "Tt")%string then same s (From_constants Tts) else
  if (kw =? "Pc")%string then same s (From_constants Pcs) else
  if (kw =? "Pt")%string then same s (From_constants Pts) else
  if (kw =? "Vc")%string then same s (From_constants Vcs) else
  if (kw =? "Zc")%string then same s (From_constants Zcs) else
  if (kw =? "omega")%string then same s (From_constants omegas) else
  if (kw =? "dipole")%string then same s (From_constants dipoles) else
  if (kw =? "StielPolar")%string then same s (From_constants StielPolars) else
  if (kw =? "similarity_variable")%string then same s (From_constants similarity_variables) else
  if (kw =? "Hfus")%string then same s (From_constants Hfus_Tms) else
  if (kw =? "Hsub_t")%string then same s (From_constants Hsub_Tts) else
  if (kw =? "Hvap_Tb")%string then same s (From_constants Hvap_Tbs) else
  if (kw =? "Vml_Tt")%string then same s (From_constants Vml_Tms) else
  if (kw =? "Psat")%string then same s (From_correlation VaporPressures) else
  if (kw =? "Cpg")%string then same s (From_correlation HeatCapacityGases) else
  if (kw =? "Cpgm")%string then same s (From_correlation HeatCapacityGases) else
  if (kw =? "Cpl")%string then same s (From_correlation HeatCapacityLiquids) else
  if (kw =? "Cps")%string then same s (From_correlation HeatCapacitySolids) else
  if (kw =? "Hvap")%string then same s (From_correlation EnthalpyVaporizations) else
  if (kw =? "Vml")%string then same s (From_correlation VolumeLiquids) else
  if (kw =? "Vmg")%string then same s (From_correlation VolumeGases) else
  if (kw =? "mug")%string then same s (From_correlation ViscosityLiquids) else
  if (kw =? "eos")%string then same s From_nothing else
  if (kw =? "**")%string then match s with From_user_database _ => true | _ => false end else
  false.
Definition mixture_keyword_source (kw : string) (s : source) : bool :=
  if (kw =? "CASs")%string then same s (From_constants CASs) else
  if (kw =? "MWs")%string then same s (From_constants MWs) else
  if (kw =? "Tcs")%string then same s (From_constants Tcs) else
  if (kw =? "Pcs")%string then same s (From_constants Pcs) else
  if (kw =? "Vcs")%string then same s (From_constants Vcs) else
  if (kw =? "Zcs")%string then same s (From_constants Zcs) else
  if (kw =? "omegas")%string then same s (From_constants omegas) else
  if (kw =? "Tbs")%string then same s (From_constants Tbs) else
  if (kw =? "molecular_diameters")%string then same s (From_constants molecular_diameters) else
  if (kw =? "Stockmayers")%string then same s (From_constants Stockmayers) else
  if (kw =? "VolumeSolids")%string then same s (From_correlation VolumeSolids) else
  if (kw =? "VolumeLiquids")%string then same s (From_correlation VolumeLiquids) else
  if (kw =? "VolumeGases")%string then same s (From_correlation VolumeGases) else
  if (kw =? "HeatCapacitySolids")%string then same s (From_correlation HeatCapacitySolids) else
  if (kw =? "HeatCapacityLiquids")%string then same s (From_correlation HeatCapacityLiquids) else
  if (kw =? "HeatCapacityGases")%string then same s (From_correlation HeatCapacityGases) else
  if (kw =? "ViscosityLiquids")%string then same s (From_correlation ViscosityLiquids) else
  if (kw =? "ViscosityGases")%string then same s (From_correlation ViscosityGases) else
  if (kw =? "ThermalConductivityLiquids")%string then same s (From_correlation ThermalConductivityLiquids) else
  if (kw =? "ThermalConductivityGases")%string then same s (From_correlation ThermalConductivityGases) else
  if (kw =? "SurfaceTensions")%string then same s (From_correlation SurfaceTensions) else
  if (kw =? "eos")%string then same s From_nothing else
  false.
Lemma sources_ok : forallb (fun sx => forallb (fun b => keyword_source (fst b) (snd b)) (snd (snd sx))) build_steps = true. Proof. vm_compute. reflexivity. Qed.
Lemma mixture_sources_ok : forallb (fun sx => forallb (fun b => mixture_keyword_source (fst b) (snd b)) (snd (snd sx))) mixture_steps = true. Proof. vm_compute. reflexivity. Qed.
Definition step_ok (x : corr) (st : corr * (string * list (string * source))) : bool := (if corr_eq_dec (fst st) x then true else false) && (fst (snd st) =? class_of x)%string && negb (length (snd (snd st)) =? 0).
Definition mixture_step_ok (x : mixture) (st : mixture * (string * list (string * source))) : bool := (if mixture_eq_dec (fst st) x then true else false) && (fst (snd st) =? mixture_class_of x)%string && negb (length (snd (snd st)) =? 0).
Lemma step_of x : exists args, In (x, (class_of x, args)) build_steps /\ args <> [].
Proof.
  assert (E : existsb (step_ok x) build_steps = true) by (destruct x; vm_compute; reflexivity). apply existsb_exists in E. destruct E as ([y [cls args]] & HI & E). unfold step_ok in E. cbn [fst snd] in E.
  apply andb_prop in E as [E E3]. apply andb_prop in E as [E1 E2]. destruct (corr_eq_dec y x) as [->|]; [|discriminate]. apply String.eqb_eq in E2. subst cls. exists args. split; auto. intros ->. discriminate.
Qed.
Lemma mixture_step_of x : exists args, In (x, (mixture_class_of x, args)) mixture_steps /\ args <> [].
Proof.
  assert (E : existsb (mixture_step_ok x) mixture_steps = true) by (destruct x; vm_compute; reflexivity). apply existsb_exists in E. destruct E as ([y [cls args]] & HI & E). unfold mixture_step_ok in E. cbn [fst snd] in E.
  apply andb_prop in E as [E E3]. apply andb_prop in E as [E1 E2]. destruct (mixture_eq_dec y x) as [->|]; [|discriminate]. apply String.eqb_eq in E2. subst cls. exists args. split; auto. intros ->. discriminate.
Qed.
Theorem C45_correlations_construct c k m skip : reachable c -> lists_n (N c) k -> exists p, new_correlations c k m skip = Ok p /\ constants p = c /\
  (* what is given is kept, and with skip_missing that is all there is *)
  (forall x l, k x = Some l -> pure p x = Some l) /\ (forall x o, m x = Some o -> mix p x = Some o) /\ (skip = true -> (forall x, pure p x = k x) /\ forall x, mix p x = m x) /\
  (* otherwise the missing ones are built *)
  (skip = false -> (forall x, k x = None -> forall i, i < N c -> exists args, object_at p x i = Some (Built (class_of x) args) /\ args <> [] /\ forall kw a, In (kw, a) args -> keyword_value c p i kw a) /\
    forall x, m x = None -> exists args, mix p x = Some (Built (mixture_class_of x) args) /\ args <> [] /\ forall kw a, In (kw, a) args -> mixture_keyword_value c p kw a).
Proof.
  intros HR HL. destruct (new_correlations_ok c k m skip HR HL) as (p & E & CP & SP & RP & PP & MP). exists p. pose proof (reachable_consistent _ HR) as HC.
  splits; auto.
  - intros x l Hx. rewrite PP. destruct skip; auto. rewrite build_allv_keep; congruence.
  - intros x o Hx. rewrite MP. destruct skip; auto. rewrite build_mixtures_keep; congruence.
  - intros ->. auto.
  - intros ->. split.
    + intros x Hx i Hi.
      assert (ND : NoDup (map fst build_steps)) by (cbn; repeat (constructor; [cbn; intuition discriminate|]); constructor).
      assert (HB : exists args, In (x, (class_of x, args)) build_steps /\ args <> []) by (apply step_of).
      destruct HB as (args & HI & NE). pose proof (build_allv_built c build_steps ND [] k build_steps_ok ltac:(intros ? []) x _ _ HI Hx) as HB. rewrite <- (PP x) in HB.
      exists (map (fun a => (fst a, argv c (pure p) i (snd a))) args).
      assert (AE : forall a, argv c (build_allv c build_steps k) i a = argv c (pure p) i a) by (intros [z|z| |u]; cbn [argv]; auto; now rewrite PP).
      splits.
      * unfold object_at. rewrite HB, nth_error_map, (nth_error_nth' _ 0) by (now rewrite seq_length). rewrite seq_nth by auto. cbn [option_map plus]. unfold builtv. do 2 f_equal. apply map_ext. intros a. now rewrite AE.
      * destruct args; [congruence|discriminate].
      * intros kw a Ha. apply in_map_iff in Ha. destruct Ha as ([kw' s] & E1 & E2). pose proof (f_equal fst E1) as E3. pose proof (f_equal snd E1) as E4. cbn [fst snd] in E3, E4. subst kw a. clear E1.
        assert (A1 : forall y, exists o, object_at p y i = Some o /\ argv c (pure p) i (From_correlation y) = AObject o).
        { intros y. pose proof (proj2 (reachable_lists p RP) SP y) as PN. destruct (pure p y) as [l|] eqn:El; [|congruence]. pose proof (proj1 (reachable_lists p RP) y l El) as LL. rewrite CP in LL.
          exists (nth i l (Given 0)). unfold object_at. cbn [argv]. rewrite El. split; auto. apply nth_error_nth'. lia. }
        pose proof sources_ok as G. rewrite forallb_forall in G. specialize (G _ HI). cbn [snd] in G. rewrite forallb_forall in G. specialize (G _ E2). cbn [fst snd] in G. clear -A1 G.
        revert G. unfold keyword_source, keyword_value. cbv zeta. repeat (destruct (String.eqb kw' _); [intros G; first [apply same_eq in G; subst s; first [apply A1 | exact eq_refl] | destruct s; [discriminate..|]; eexists; exact eq_refl]|]). discriminate.
    + assert (PN : forall x, exists l, pure p x = Some l). { intros y. pose proof (proj2 (reachable_lists p RP) SP y) as Q. destruct (pure p y); [eauto|destruct Q; reflexivity]. }
      assert (AN : forall x, exists l, attr c x = Some l) by (intros y; destruct (HC y) as (l & -> & _); eauto).
      intros x Hx. revert PP MP. cbv iota. generalize (build_allv c build_steps k). intros kk PP MP.
      assert (ND : NoDup (map fst mixture_steps)) by (cbn; repeat (constructor; [cbn; intuition discriminate|]); constructor).
      assert (HB : exists args, In (x, (mixture_class_of x, args)) mixture_steps /\ args <> []) by (apply mixture_step_of).
      destruct HB as (args & HI & NE). pose proof (build_mixtures_built c kk mixture_steps m x _ _ ND HI Hx) as HB. rewrite <- (MP x) in HB.
      eexists. split; [exact HB|]. split; [intros E1; apply NE; now apply map_eq_nil in E1|].
      intros kw a Ha. apply in_map_iff in Ha. destruct Ha as ([kw' s] & E1 & E2). pose proof (f_equal fst E1) as E3. pose proof (f_equal snd E1) as E4. cbn [fst snd] in E3, E4. subst kw a. clear E1.
      pose proof mixture_sources_ok as G. rewrite forallb_forall in G. specialize (G _ HI). cbn [snd] in G. rewrite forallb_forall in G. specialize (G _ E2). cbn [fst snd] in G.
      assert (A1 : forall y, exists l, attr c y = Some l /\ mixture_arg c kk (From_constants y) = AValues l) by (intros y; destruct (AN y) as (l & El); exists l; cbn [mixture_arg]; now rewrite El).
      assert (A2 : forall y, exists l, pure p y = Some l /\ mixture_arg c kk (From_correlation y) = AObjects l) by (intros y; destruct (PN y) as (l & El); exists l; cbn [mixture_arg]; now rewrite <- PP, El).
      clear -A1 A2 G. revert G. unfold mixture_keyword_source, mixture_keyword_value. cbv zeta. repeat (destruct (String.eqb kw' _); [intros G; apply same_eq in G; subst s; first [apply A1 | apply A2 | exact eq_refl]|]). discriminate.
Qed.

(* building the default objects and taking a subset can be done in either order *)
Section Commute.
Variables (c c' : package) (sel : list nat).
Hypothesis NC : N c' = length sel.
Hypothesis RNG : forall i, In i sel -> i < N c.
Hypothesis CC : forall x j, x <> atom_fractions -> j < length sel -> component c' j x = component c (nth j sel 0) x.
Lemma build_rel steps : forall have k k', deps_ok steps have = true -> lists_n (N c) k -> (forall x, k' x = option_map (fun l => pickc l sel) (k x)) -> (forall x, In x have -> k x <> None) ->
  forall x, build_allv c' steps k' x = option_map (fun l => pickc l sel) (build_allv c steps k x).
Proof.
  induction steps as [|[y [cls args]] steps IH]; intros have k k' HD HL HK HH x; cbn [build_allv deps_ok] in *; auto. apply andb_prop in HD as [HD1 HD2]. rewrite HK. destruct (k y) as [l|] eqn:E; cbn [option_map].
  - apply (IH (y :: have)); auto. intros z [<-|Hz]; [congruence|auto].
  - assert (EL : map (builtv c' k' cls args) (seq 0 (N c')) = pickc (map (builtv c k cls args) (seq 0 (N c))) sel).
    { rewrite NC. apply (nth_ext _ _ (Given 0) (Given 0)); [unfold pickc; now rewrite !map_length, seq_length|]. intros j Hj. rewrite map_length, seq_length in Hj.
      rewrite (nth_indep _ (Given 0) (builtv c' k' cls args 0)) by (now rewrite map_length, seq_length). rewrite (map_nth (builtv c' k' cls args)), seq_nth by auto. cbn [plus].
      unfold pickc. rewrite (nth_indep _ (Given 0) (nth 0 (map (builtv c k cls args) (seq 0 (N c))) (Given 0))) by (now rewrite map_length). rewrite (map_nth (fun i => nth i _ (Given 0))).
      assert (HS : nth j sel 0 < N c) by (apply RNG, nth_In; auto). rewrite (nth_indep _ (Given 0) (builtv c k cls args 0)) by (now rewrite map_length, seq_length). rewrite (map_nth (builtv c k cls args)), seq_nth by auto. cbn [plus].
      unfold builtv. f_equal. apply map_ext_in. intros a Ha. f_equal. rewrite forallb_forall in HD1. specialize (HD1 a Ha). unfold arg_ok in HD1. destruct (snd a) as [z|z| |u]; cbn [argv]; auto.
      - f_equal. apply CC; auto. intros ->. discriminate HD1.
      - apply hasc_in in HD1. specialize (HH z HD1). rewrite HK. destruct (k z) as [m|] eqn:Ez; [|congruence]. cbn [option_map]. f_equal. unfold pickc. rewrite (nth_indep _ (Given 0) (nth 0 m (Given 0))) by (now rewrite map_length). now rewrite (map_nth (fun i => nth i m (Given 0))).
      - f_equal. apply CC; auto. discriminate. }
    apply (IH (y :: have)); auto.
    + apply set_corr_lists; auto. now rewrite map_length, seq_length.
    + intros z. unfold set_corr. destruct (corr_eq_dec z y); [cbn; now rewrite EL|apply HK].
    + intros z [<-|Hz]; unfold set_corr; [destruct (corr_eq_dec y y); congruence|]. destruct (corr_eq_dec z y); [discriminate|auto].
Qed.
End Commute.
Lemma build_mixtures_ext c k k' steps : (forall x, k x = k' x) -> forall m x, build_mixtures c k steps m x = build_mixtures c k' steps m x.
Proof.
  intros H. induction steps as [|[y [cls args]] steps IH]; intros m x; cbn [build_mixtures]; auto. destruct (m y); auto.
  replace (map (fun a => (fst a, mixture_arg c k (snd a))) args) with (map (fun a => (fst a, mixture_arg c k' (snd a))) args); auto. apply map_ext. intros a. f_equal. destruct (snd a); cbn; auto. now rewrite H.
Qed.
Theorem C45_correlations_commute c s sel : reachable c -> s <> All -> designates (N c) s sel ->
  exists p c' q q', new_correlations c (fun _ => None) (fun _ => None) false = Ok p /\ subset c s None = Ok c' /\ subset_correlations p s = Ok q /\ new_correlations c' (fun _ => None) (fun _ => None) false = Ok q' /\
  (forall x, pure q x = pure q' x) /\ (forall x, mix q x = mix q' x).
Proof.
  intros HR NA D. destruct (new_correlations_ok c (fun _ => None) (fun _ => None) false HR ltac:(intros ? ?; discriminate)) as (p & EP & CP & SP & RP & PP & MP).
  destruct (C45_subset c s sel None HR D) as (c' & EC & RC & NC & CC). rewrite <- CP in D. destruct (subset_correlations_ok p s sel RP NA D) as (q & c2 & k & EC2 & EQ & EN & K). rewrite CP in *. rewrite EC in EC2. injection EC2 as <-.
  destruct (new_correlations_ok c' (fun _ => None) (fun _ => None) false RC ltac:(intros ? ?; discriminate)) as (q' & EQ' & _ & _ & _ & PQ' & MQ').
  assert (KL : lists_n (N c') k) by (intros x l; rewrite K; destruct (pure p x) as [l0|]; [|discriminate]; intros [= <-]; unfold pickc; now rewrite map_length).
  rewrite SP in EN. destruct (new_correlations_ok c' k (fun _ => None) false RC KL) as (q2 & E2 & _ & _ & _ & PQ & MQ). rewrite EN in E2. injection E2 as <-.
  assert (BE : forall x, build_allv c' build_steps k x = build_allv c' build_steps (fun _ => None) x).
  { intros x. rewrite (build_rel c c' sel NC (designates_range _ _ _ D) (fun x j Hx Hj => proj1 (CC x j) Hx Hj) build_steps [] (fun _ => None) (fun _ => None) build_steps_ok ltac:(intros ? ?; discriminate) ltac:(reflexivity) ltac:(intros ? [])).
    destruct (build_all_ok c' build_steps (reachable_consistent _ RC) k [] KL ltac:(intros ? []) build_steps_ok) as (_ & _ & I3 & _).
    destruct (build_all_ok c build_steps (reachable_consistent _ HR) (fun _ => None) [] ltac:(intros ? ?; discriminate) ltac:(intros ? []) build_steps_ok) as (_ & _ & _ & I4).
    specialize (I4 x (steps_all x)). specialize (K x). rewrite PP in K. destruct (build_allv c build_steps (fun _ => None) x) as [l|]; [|congruence]. cbn [option_map] in *. apply I3. exact K. }
  exists p, c', q, q'. splits; auto.
  - intros x. rewrite PQ, PQ'. apply BE.
  - intros x. rewrite MQ, MQ'. apply build_mixtures_ext, BE.
Qed.

(* adding: the objects of both packages in order; packages with a missing list cannot be added *)
Lemma add_pure_ok a b cs : (forall x, pure a x <> None) -> (forall x, pure b x <> None) -> forall new, exists k, add_pure a b cs new = Ok k /\
  forall x, k x = if hasc x cs then match pure a x, pure b x with Some u, Some v => Some (u ++ v) | _, _ => None end else new x.
Proof.
  intros HA HB. induction cs as [|y cs IH]; intros new; cbn [add_pure]; [exists new; auto|].
  pose proof (HA y) as HAy. pose proof (HB y) as HBy. destruct (pure a y) as [u|] eqn:EA; [|congruence]. destruct (pure b y) as [v|] eqn:EB; [|congruence].
  destruct (IH (set_corr new y (u ++ v))) as (k & E & K). exists k. split; auto. intros x. rewrite K. unfold set_corr. destruct (corr_eq_dec x y) as [->|NE].
  - rewrite EA, EB. assert (hasc y (y :: cs) = true) as -> by (apply hasc_in; left; auto). destruct (hasc y cs); auto.
  - destruct (hasc x cs) eqn:E1; [assert (hasc x (y :: cs) = true) as -> by (apply hasc_in; right; now apply hasc_in); auto|].
    assert (hasc x (y :: cs) = false) as ->; auto. apply hasc_out. intros [->|I]; auto. apply hasc_out in E1. auto.
Qed.
Theorem C45_correlations_add a b : reachable_correlations a -> reachable_correlations b -> (forall x, pure a x <> None) -> (forall x, pure b x <> None) ->
  exists q, add_correlations a b = Ok q /\ reachable_correlations q /\ add_packages (constants a) (constants b) = Ok (constants q) /\
  forall x i, object_at q x i = if i <? N (constants a) then object_at a x i else object_at b x (i - N (constants a)).
Proof.
  intros RA RB HA HB. destruct (reachable_lists a RA) as [LA _]. destruct (reachable_lists b RB) as [LB _]. pose proof RA as (_ & _ & RA' & _). pose proof RB as (_ & _ & RB' & _).
  destruct (C45_add _ _ RA' RB') as (c & EC & RC & NC & _). destruct (add_pure_ok a b pure_correlations HA HB (fun _ => None)) as (k & EK & K).
  assert (K' : forall x, exists u v, pure a x = Some u /\ pure b x = Some v /\ k x = Some (u ++ v)).
  { intros x. rewrite K. assert (hasc x pure_correlations = true) as -> by (apply hasc_in, pure_all). specialize (HA x). specialize (HB x). destruct (pure a x), (pure b x); try congruence. eauto. }
  assert (KL : lists_n (N c) k). { intros x l. destruct (K' x) as (u & v & U & V & ->). intros [= <-]. rewrite app_length, NC, (LA _ _ U), (LB _ _ V). reflexivity. }
  destruct (new_correlations_ok c k (fun _ => None) (skip_missing a || skip_missing b) RC KL) as (q & EQ & CQ & _ & RQ & PQ & _). exists q. unfold add_correlations. rewrite EC. cbn [bind]. rewrite EK. cbn [bind]. splits; auto; [now rewrite CQ|].
  destruct (build_all_ok c build_steps (reachable_consistent _ RC) k [] KL ltac:(intros ? []) build_steps_ok) as (_ & _ & I3 & _).
  intros x i. unfold object_at. destruct (K' x) as (u & v & U & V & KX). assert (PE : pure q x = Some (u ++ v)) by (rewrite PQ; destruct (_ || _); auto). rewrite PE, U, V. rewrite <- (LA _ _ U).
  destruct (Nat.ltb_spec i (length u)); [now apply nth_error_app1|now apply nth_error_app2].
Qed.

(* ---- limits of the claim ---- *)
Definition kw1 : kwargs := fun x => match x with MWs => Some [VInt 18; VInt 58] | CASs => Some [VStr "7732-18-5"; VStr "106-97-8"] | names => Some [VStr "water"; VStr "butane"] | atom_fractions => Some [VDict []; VDict []] | _ => None end%string.
Lemma kw1_lists : lists_of 2 kw1. Proof. split; [eexists; reflexivity|]. intros x l; destruct x; cbn; intros [= <-]; reflexivity. Qed.
Lemma all_positions p : 0 < N p -> designates (N p) All (seq 0 (N p)). Proof. intros H. split; auto. Qed.
(* the atom fractions are lost, even by the subset of everything *)
Theorem C45_atom_fractions_refuted : exists p q, reachable p /\ subset p All None = Ok q /\ component p 0 atom_fractions <> VNone /\ component q 0 atom_fractions = VNone.
Proof.
  destruct (C45_construct 2 kw1 kw1_lists) as (p & E & R & _ & NP & CP). destruct (C45_subset p All (seq 0 (N p)) None R) as (q & EQ & _ & _ & CQ); [apply all_positions; lia|].
  exists p, q. splits; auto; [rewrite CP; discriminate|]. apply CQ. cbn. congruence.
Qed.
(* a missing identifier does not raise the documented IndexError *)
Theorem C45_documented_error_refuted : exists p, reachable p /\ compound_index p (Some (KStr "64-17-5")) None None None None None = Raise Key_error /\ compound_index p None (Some (KStr "ethanol")) None None None None = Raise Value_error.
Proof.
  destruct (new_ok 2 kw1 kw1_lists) as (p & E & NP & A & _). exists p. splits; [exists kw1; rewrite NP; split; auto using kw1_lists| |]; unfold compound_index; rewrite A; reflexivity.
Qed.
(* with a repeated component the CAS number finds the last one and the name the first one *)
Theorem C45_repeated_component_refuted : exists p, reachable p /\ (forall x, component p 0 x = component p 1 x) /\ compound_index p (Some (KStr "7732-18-5")) None None None None None = Ok 1 /\ compound_index p None (Some (KStr "water")) None None None None = Ok 0.
Proof.
  set (kw := (fun x => match x with MWs => Some [VInt 18; VInt 18] | CASs => Some [VStr "7732-18-5"; VStr "7732-18-5"] | names => Some [VStr "water"; VStr "water"] | _ => None end%string) : kwargs).
  assert (L : lists_of 2 kw) by (split; [eexists; reflexivity|]; intros x l; destruct x; cbn; intros [= <-]; reflexivity). destruct (new_ok 2 kw L) as (p & E & NP & A & _).
  exists p. splits; [exists kw; rewrite NP; split; auto|unfold component; intros x; rewrite A; destruct x; reflexivity| |]; unfold compound_index; rewrite A; reflexivity.
Qed.
(* lists of different lengths are accepted by the constructor *)
Theorem C45_lengths_refuted : exists kw p, new_package kw = Ok p /\ ~ consistent p.
Proof.
  exists (fun x => match x with MWs => Some [VInt 18] | names => Some [VStr "water"; VStr "ethanol"]%string | _ => None end). eexists. split; [reflexivity|]. intros H. destruct (H names) as (l & E & L). cbn in E. injection E as <-. discriminate L.
Qed.
(* PropertyCorrelationsPackage.subset(None) is a TypeError although None is documented to mean all components *)
Theorem C45_subset_none_refuted p : reachable_correlations p -> 0 < N (constants p) -> (exists x, pure p x <> None) -> subset_correlations p All = Raise Type_error.
Proof.
  intros (k & m & R & _) HN (x & HX). unfold subset_correlations. destruct (C45_subset (constants p) All (seq 0 (N (constants p))) None R) as (c & EC & _); [now apply all_positions|]. rewrite EC. cbn [bind].
  assert (G : forall cs new, In x cs -> collect_corr p (fun _ => Raise Type_error) cs new = Raise Type_error). { induction cs as [|y cs IH]; intros new HI; [destruct HI|]. cbn. destruct (pure p y) eqn:E; auto. destruct HI as [->|HI]; [congruence|auto]. }
  now rewrite G by apply pure_all.
Qed.
(* mixture objects given to a package with skip_missing are lost by subset *)
Theorem C45_mixture_objects_refuted : exists p q, reachable_correlations p /\ subset_correlations p (Idxs [0%Z; 1%Z]) = Ok q /\ mix p VolumeGasMixture = Some (Given 7) /\ mix q VolumeGasMixture = None.
Proof.
  destruct (C45_construct 2 kw1 kw1_lists) as (c & E & R & _ & NC & _). destruct (new_correlations_ok c (fun _ => None) (fun x => match x with VolumeGasMixture => Some (Given 7) | _ => None end) true R ltac:(intros ? ?; discriminate)) as (p & EP & CP & SP & RP & PP & MP).
  assert (D : designates (N (constants p)) (Idxs [0%Z; 1%Z]) [0; 1]). { rewrite CP, NC. split; [discriminate|]. repeat constructor. }
  destruct (subset_correlations_ok p (Idxs [0%Z; 1%Z]) [0; 1] RP ltac:(discriminate) D) as (q & c2 & k & EC & EQ & EN & K). exists p, q. splits; auto; [now rewrite MP|]. rewrite SP in EN. unfold new_correlations in EN. cbn [bind] in EN. injection EN as <-. reflexivity.
Qed.
(* packages that were built with skip_missing and lack a property cannot be added *)
Theorem C45_add_missing_refuted a b x : reachable (constants a) -> reachable (constants b) -> pure a x = None \/ pure b x = None -> add_correlations a b = Raise Type_error.
Proof.
  intros RA RB HX. destruct (C45_add _ _ RA RB) as (c & EC & _). unfold add_correlations. rewrite EC. cbn [bind].
  assert (G : forall cs new, In x cs -> add_pure a b cs new = Raise Type_error). { induction cs as [|y cs IH]; intros new HI; [destruct HI|]. cbn. destruct (pure a y) eqn:EA; auto. destruct (pure b y) eqn:EB; auto. destruct HI as [->|HI]; [destruct HX; congruence|auto]. }
  now rewrite G by apply pure_all.
Qed.
(* the default gas thermal conductivity object is given the liquid viscosity object as its gas viscosity *)
Theorem C45_gas_viscosity_refuted : exists cls args, In (ThermalConductivityGases, (cls, args)) build_steps /\ In ("mug"%string, From_correlation ViscosityLiquids) args /\ ~ In ("mug"%string, From_correlation ViscosityGases) args.
Proof.
  do 2 eexists. split; [do 15 right; left; reflexivity|]. split; [cbn; intuition|]. cbn. intros H. repeat (destruct H as [H|H]; [discriminate H|]). destruct H.
Qed.

Example C45_hypotheses_met : exists p, reachable p /\ N p = 2 /\ designates (N p) (Idxs [(-1)%Z; 0%Z]) [1; 0] /\ water_index p = Some 0 /\
  (exists q, subset p (Idxs [(-1)%Z; 0%Z]) None = Ok q /\ component q 0 names = VStr "butane" /\ component q 1 names = VStr "water" /\ component q 0 CASs = VStr "106-97-8") /\
  exists r, reachable_correlations r /\ constants r = p /\ forall x, pure r x <> None.
Proof.
  destruct (new_ok 2 kw1 kw1_lists) as (p & E & NP & A & W & _). assert (R : reachable p) by (exists kw1; rewrite NP; split; auto using kw1_lists).
  assert (D : designates (N p) (Idxs [(-1)%Z; 0%Z]) [1; 0]). { rewrite NP. split; [discriminate|]. constructor; [split; [lia|right; reflexivity]|constructor; [split; [lia|left; reflexivity]|constructor]]. }
  exists p. splits; auto.
  - destruct (C45_subset p _ _ None R D) as (q & EQ & _ & _ & C). exists q. split; auto. destruct (C names 0) as [C0 _]. destruct (C names 1) as [C1 _]. destruct (C CASs 0) as [C2 _]. rewrite C0, C1, C2 by (cbn; auto; discriminate). unfold component. rewrite !A. splits; reflexivity.
  - destruct (new_correlations_ok p (fun _ => None) (fun _ => None) false R ltac:(intros ? ?; discriminate)) as (r & _ & CR & SR & RR & _). exists r. splits; auto. apply reachable_lists; auto.
Qed.
