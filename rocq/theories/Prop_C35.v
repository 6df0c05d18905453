(* C35: phase identification and sorting. *)
From Coq Require Import Reals Lra Lia List Bool Arith Sorted Permutation.
From Verif Require Import Base BaseFacts Model_phaseid Spec_phaseid.
Import ListNotations.
Open Scope R_scope.

(* ---- lists ---- *)
Lemma filter_split {X} (f g h : X -> bool) l : (forall x, In x l -> (f x = true /\ g x = false /\ h x = false) \/ (f x = false /\ g x = true /\ h x = false) \/ (f x = false /\ g x = false /\ h x = true)) ->
  Permutation l (filter f l ++ filter g l ++ filter h l).
Proof.
  induction l as [|x l IH]; intros H; cbn; auto. destruct (H x (or_introl eq_refl)) as [(-> & -> & ->)|[(-> & -> & ->)|(-> & -> & ->)]]; cbn.
  - constructor. apply IH. intros; apply H; right; auto.
  - apply Permutation_cons_app. apply IH. intros; apply H; right; auto.
  - rewrite app_assoc. apply Permutation_cons_app. rewrite <- app_assoc. apply IH. intros; apply H; right; auto.
Qed.
Lemma filter_id (f : phase -> bool) l : (forall x, In x l -> f x = true) -> filter f l = l.
Proof. induction l as [|x l IH]; intros H; cbn; auto. rewrite (H x), IH; cbn; auto. intros; apply H; right; auto. Qed.
Lemma filter_neq g l : NoDup l -> In g l -> Permutation l (g :: filter (fun p => negb (p =? g)%nat) l).
Proof.
  induction l as [|x l IH]; intros HN []; inversion HN; subst; cbn.
  - rewrite Nat.eqb_refl. cbn. rewrite filter_id; auto. intros y Hy. apply negb_true_iff, Nat.eqb_neq. intros ->. contradiction.
  - destruct (Nat.eqb_spec x g) as [->|E]; [contradiction|]. cbn. rewrite perm_swap. constructor. auto.
Qed.
Lemma nodup_left {X} (a b : list X) : NoDup (a ++ b) -> NoDup a.
Proof. induction a as [|x a IH]; cbn; intros H; [constructor|]. inversion H; subst. constructor; auto. intros Hx. apply H2, in_or_app; auto. Qed.
Lemma nodup_right {X} (a b : list X) : NoDup (a ++ b) -> NoDup b.
Proof. induction a as [|x a IH]; cbn; intros H; auto. inversion H; subst. auto. Qed.
Lemma NoDup_filter' {X} (f : X -> bool) l : NoDup l -> NoDup (filter f l).
Proof. apply NoDup_filter. Qed.

Section Proofs.
Variable A : attributes.
Variable skip : bool.

(* ---- identification ---- *)
Definition isS p := negb skip && Rleb 0 (a_S A p).
Definition isG T p := negb (isS p) && Rleb 0 (a_VL A T p).
Definition isL T p := negb (isS p) && negb (Rleb 0 (a_VL A T p)).
Lemma classify_eq ph s g l sc : let T := a_T A (hd 0%nat ph) in
  classify A skip ph s g l sc = (s ++ filter isS ph, g ++ filter (isG T) ph, l ++ filter (isL T) ph, sc ++ map (a_VL A T) (filter (isG T) ph)).
Proof.
  cbv zeta. unfold classify, VL_scores, S_scores. set (T := a_T A (hd 0%nat ph)).
  assert (K : forall suf pre s g l sc, ph = pre ++ suf -> fold_left (fun st i => let '(solids, gases, liquids, scores) := st in let p := nth i ph 0%nat in
     if negb skip && Rleb 0 (nth i (map (a_S A) ph) 0) then (solids ++ [p], gases, liquids, scores)
     else if Rleb 0 (nth i (map (a_VL A T) ph) 0) then (solids, gases ++ [p], liquids, scores ++ [nth i (map (a_VL A T) ph) 0])
     else (solids, gases, liquids ++ [p], scores)) (seq (length pre) (length suf)) (s, g, l, sc) = (s ++ filter isS suf, g ++ filter (isG T) suf, l ++ filter (isL T) suf, sc ++ map (a_VL A T) (filter (isG T) suf))).
  { clear. induction suf as [|x suf IH]; intros pre s g l sc E; cbn [seq fold_left length filter map].
    - now rewrite !app_nil_r.
    - assert (N : nth (length pre) ph 0%nat = x) by (rewrite E, app_nth2, Nat.sub_diag by lia; reflexivity).
      assert (N1 : forall f : nat -> R, nth (length pre) (map f ph) 0 = f x). { intros f. rewrite nth_indep with (d' := f 0%nat). rewrite map_nth. now rewrite N. rewrite map_length, E, app_length. cbn. lia. }
      cbv zeta. rewrite N, !N1. assert (E' : ph = (pre ++ [x]) ++ suf) by (now rewrite <- app_assoc).
      replace (S (length pre)) with (length (pre ++ [x])) by (rewrite app_length; cbn; lia).
      change (isG T x) with (negb (negb skip && Rleb 0 (a_S A x)) && Rleb 0 (a_VL A T x)). change (isL T x) with (negb (negb skip && Rleb 0 (a_S A x)) && negb (Rleb 0 (a_VL A T x))). change (isS x) with (negb skip && Rleb 0 (a_S A x)). destruct (negb skip && Rleb 0 (a_S A x)); cbn [negb andb]; [|destruct (Rleb 0 (a_VL A T x)); cbn [negb]]; rewrite IH by exact E'; cbn [map]; rewrite <- ?app_assoc; reflexivity. }
  apply (K ph [] s g l sc eq_refl).
Qed.
Lemma py_max_in l m : py_max l = Some m -> In m l /\ forall x, In x l -> x <= m.
Proof.
  destruct l as [|x l]; [discriminate|]. cbn. intros [= <-]. revert x. induction l as [|y l IH]; intros x; cbn.
  - split; auto. intros ? [<-|[]]. lra.
  - destruct (IH (if Rltb x y then y else x)) as [H1 H2]. destruct (Rltb_spec x y) as [E|E].
    + split. destruct H1 as [H1|H1]; auto. intros z [<-|[<-|Hz]]; [|apply H2; left; reflexivity|apply H2; right; auto]. apply Rle_trans with y; [lra|apply H2; left; reflexivity].
    + split. destruct H1 as [H1|H1]; auto. intros z [<-|[<-|Hz]]; [apply H2; left; reflexivity| |apply H2; right; auto]. apply Rle_trans with x; [lra|apply H2; left; reflexivity].
Qed.
Lemma py_max_none l : py_max l = None -> l = [].
Proof. destruct l; [auto|discriminate]. Qed.
Lemma index_of_spec x l : In x l -> (index_of x l < length l)%nat /\ nth (index_of x l) l 0 = x.
Proof.
  induction l as [|y l IH]; intros []; cbn.
  - subst. rewrite Reqb_true by reflexivity. split; [lia|reflexivity].
  - destruct (Reqb_spec y x); [split; [lia|auto]|]. destruct (IH H). split; [lia|auto].
Qed.

(* the three classes of the input *)
Definition gases phases := with_force A Force_g phases ++ filter (isG (a_T A (hd 0%nat (unknown A phases)))) (unknown A phases).
Definition liquids0 phases := with_force A Force_l phases ++ filter (isL (a_T A (hd 0%nat (unknown A phases)))) (unknown A phases).
Definition solids0 phases := with_force A Force_s phases ++ filter isS (unknown A phases).
Definition scores phases := map (a_VL A (a_T A (hd 0%nat (unknown A phases)))) (filter (isG (a_T A (hd 0%nat (unknown A phases)))) (unknown A phases)).
Lemma classes phases : (forall p, In p phases -> known_force A p) -> Permutation phases (gases phases ++ liquids0 phases ++ solids0 phases).
Proof.
  intros HK. set (T := a_T A (hd 0%nat (unknown A phases))).
  assert (P1 : Permutation phases ((with_force A Force_g phases ++ with_force A Force_l phases ++ with_force A Force_s phases) ++ unknown A phases)).
  { clear T. induction phases as [|x l IH]; cbn; auto. specialize (IH (fun p H => HK p (or_intror H))). pose proof (HK x (or_introl eq_refl)) as Hx. unfold known_force in Hx.
    destruct (a_force A x) as [[]|]; cbn [app].
    - rewrite <- !app_assoc in *. cbn. rewrite <- ?app_assoc. apply Permutation_cons_app. exact IH.
    - rewrite <- !app_assoc in *. cbn. rewrite <- ?app_assoc. cbn. rewrite app_assoc. apply Permutation_cons_app. rewrite <- app_assoc. exact IH.
    - now constructor.
    - exfalso; auto.
    - now apply Permutation_cons_app. }
  assert (P2 : Permutation (unknown A phases) (filter (isG T) (unknown A phases) ++ filter (isL T) (unknown A phases) ++ filter isS (unknown A phases))).
  { apply filter_split. intros x _. unfold isG, isL. destruct (isS x), (Rleb 0 (a_VL A T x)); cbn; auto. }
  rewrite P1 at 1. rewrite P2 at 1. unfold gases, liquids0, solids0. fold T.
  generalize (with_force A Force_g phases) (with_force A Force_l phases) (with_force A Force_s phases) (filter (isG T) (unknown A phases)) (filter (isL T) (unknown A phases)) (filter isS (unknown A phases)). clear.
  intros a b c d e f. rewrite <- !app_assoc. apply Permutation_app_head. transitivity (d ++ b ++ c ++ e ++ f).
  - rewrite !app_assoc. do 2 apply Permutation_app_tail. rewrite (Permutation_app_comm (b ++ c) d). now rewrite app_assoc.
  - apply Permutation_app_head, Permutation_app_head. rewrite !app_assoc. apply Permutation_app_tail, Permutation_app_comm.
Qed.
Lemma identity_eq phases : identity_phase_states A skip phases =
  match gases phases with
  | [] => Ok (None, liquids0 phases, solids0 phases)
  | [g] => Ok (Some g, liquids0 phases, solids0 phases)
  | _ => match py_max (scores phases) with None => Err ValueError_max | Some m =>
     Ok (Some (nth (index_of m (scores phases)) (gases phases) 0%nat), liquids0 phases ++ filter (fun p => negb (p =? nth (index_of m (scores phases)) (gases phases) 0)%nat) (gases phases), solids0 phases) end
  end.
Proof. unfold identity_phase_states. rewrite classify_eq. reflexivity. Qed.
Lemma scores_length phases : (length (scores phases) <= length (gases phases))%nat.
Proof. unfold scores, gases. rewrite map_length, app_length. lia. Qed.
(* the shape of an identification *)
Lemma identity_ok phases gas liquids solids : NoDup phases -> (forall p, In p phases -> known_force A p) -> identity_phase_states A skip phases = Ok (gas, liquids, solids) ->
  solids = solids0 phases /\ (gas = None <-> gases phases = []) /\ (forall g, gas = Some g -> In g (gases phases)) /\ Permutation (gases phases ++ liquids0 phases) (match gas with Some g => [g] | None => [] end ++ liquids) /\
  (forall p, In p (liquids0 phases) -> In p liquids) /\ (forall p, In p liquids -> In p (liquids0 phases) \/ (In p (gases phases) /\ gas <> Some p)).
Proof.
  intros HN HK. rewrite identity_eq.
  assert (NG : NoDup (gases phases)) by (apply (Permutation_NoDup (classes phases HK)) in HN; now apply nodup_left in HN).
  destruct (gases phases) as [|g [|g' gs]] eqn:EG.
  - intros [= <- <- <-]. splits; auto; try tauto; try discriminate.
  - intros [= <- <- <-]. splits; auto; try (split; discriminate). intros ? [= <-]. cbn; auto.
  - rewrite <- EG in *. destruct (py_max (scores phases)) as [m|] eqn:EM; [|discriminate]. intros [= <- <- <-]. apply py_max_in in EM. destruct EM as [EM _]. apply index_of_spec in EM. destruct EM as [EM _].
    set (k := index_of m (scores phases)) in *. pose proof (scores_length phases) as SL. assert (IG : In (nth k (gases phases) 0%nat) (gases phases)) by (apply nth_In; lia).
    splits; auto.
    + split; [discriminate|]. rewrite EG. discriminate.
    + intros ? [= <-]. exact IG.
    + rewrite (filter_neq _ _ NG IG) at 1. cbn. constructor. apply Permutation_app_comm.
    + intros p Hp. apply in_or_app; auto.
    + intros p Hp. apply in_app_or in Hp. destruct Hp as [Hp|Hp]; auto. right. apply filter_In in Hp. destruct Hp as [Hp Hq]. split; auto. intros [= E]. rewrite E, Nat.eqb_refl in Hq. discriminate.
Qed.

Lemma hd_T phases T p : score_T A phases T -> In p (unknown A phases) -> a_T A (hd 0%nat (unknown A phases)) = T.
Proof. intros HT. unfold score_T in HT. fold (unknown A phases) in HT. destruct (unknown A phases) as [|q l]; [intros []|]. intros _. symmetry. cbn. eapply HT. reflexivity. Qed.
Lemma in_unknown phases p : In p (unknown A phases) <-> In p phases /\ a_force A p = None.
Proof. unfold unknown. rewrite filter_In. destruct (a_force A p) as [[]|]; intuition congruence. Qed.
Lemma in_force k phases p : k <> Force_other -> In p (with_force A k phases) <-> In p phases /\ a_force A p = Some k.
Proof. intros Hk. unfold with_force. rewrite filter_In. destruct (a_force A p) as [[]|], k; intuition congruence. Qed.
Lemma isS_spec p : isS p = true <-> skip = false /\ 0 <= a_S A p.
Proof. unfold isS. destruct skip, (Rleb_spec 0 (a_S A p)); cbn; intuition congruence. Qed.
Lemma in_gases phases T p : score_T A phases T -> In p (gases phases) <-> In p phases /\ may_be_gas A skip T p.
Proof.
  intros HT. unfold gases, may_be_gas, must_be_solid. rewrite in_app_iff, filter_In, in_force, in_unknown by discriminate.
  destruct (a_force A p) eqn:E; [split; [intuition congruence|]; intros [H [H1|H1]]; intuition congruence|].
  split.
  - intros [H|[[H _] H1]]; [intuition congruence|]. rewrite (hd_T phases T p HT) in H1 by (apply in_unknown; auto). unfold isG in H1. apply andb_prop in H1. destruct H1 as [H1 H2]. split; auto. right. splits; auto.
    + intros [?|(_ & H3 & H4)]; [discriminate|]. assert (isS p = true) by (apply isS_spec; auto). rewrite H0 in H1. discriminate.
    + destruct (Rleb_spec 0 (a_VL A T p)); [auto|discriminate].
  - intros [H [H1|(_ & H1 & H2)]]; [discriminate|]. right. splits; auto. rewrite (hd_T phases T p HT) by (apply in_unknown; auto). unfold isG. rewrite (Rleb_true _ _ H2). destruct (isS p) eqn:ES; auto. exfalso. apply H1. apply isS_spec in ES. tauto.
Qed.
Lemma in_solids phases p : In p (solids0 phases) <-> In p phases /\ must_be_solid A skip p.
Proof. unfold solids0, must_be_solid. rewrite in_app_iff, filter_In, in_force, in_unknown, isS_spec by discriminate. tauto. Qed.

(* ---- sorting ---- *)
Lemma insert_perm a l : Permutation (a :: l) (insert a l).
Proof. induction l as [|b l IH]; cbn; auto. destruct (Rltb _ _); auto. rewrite perm_swap. now constructor. Qed.
Lemma insert_sorted a l : StronglySorted (fun x y : R * phase => fst x <= fst y) l -> StronglySorted (fun x y => fst x <= fst y) (insert a l).
Proof.
  induction 1 as [|b l HS IH HF]; cbn; [repeat constructor|]. destruct (Rltb_spec (fst b) (fst a)) as [E|E].
  - constructor; auto. apply Forall_forall. intros x Hx. apply (Permutation_in x (Permutation_sym (insert_perm a l))) in Hx. destruct Hx as [<-|Hx]; [lra|]. rewrite Forall_forall in HF. auto.
  - constructor; [constructor; auto|]. constructor; [lra|]. rewrite Forall_forall in *. intros x Hx. specialize (HF x Hx). cbn in HF. lra.
Qed.
Lemma sorted_ok l m : py_sorted A l = Ok m -> Permutation l m /\ StronglySorted (fun x y => fst x <= fst y) m.
Proof.
  unfold py_sorted. destruct (has_clash A l); [discriminate|]. intros [= <-]. induction l as [|a l [IH1 IH2]]; cbn; [split; auto; constructor|]. split.
  - rewrite <- insert_perm. now constructor.
  - now apply insert_sorted.
Qed.
Lemma SS_map (key : phase -> R) l : (forall p, In p l -> fst p = key (snd p)) -> StronglySorted (fun x y : R * phase => fst x <= fst y) l -> StronglySorted (fun p q => key p <= key q) (map snd l).
Proof.
  intros H HS. induction HS as [|a l HS IH HF]; cbn; constructor.
  - apply IH. intros; apply H; right; auto.
  - rewrite Forall_forall in *. intros x Hx. apply in_map_iff in Hx. destruct Hx as [y [<- Hy]]. rewrite <- !H; [auto|right; auto|left; auto].
Qed.
Lemma SS_rev (r : phase -> phase -> Prop) l : StronglySorted r l -> StronglySorted (fun p q => r q p) (rev l).
Proof.
  induction 1 as [|a l HS IH HF]; cbn; [constructor|]. clear HS. rewrite Forall_forall in HF. assert (HF' : forall x, In x (rev l) -> r a x) by (intros x Hx; apply HF; now apply in_rev). clear HF. induction IH as [|b m IH1 IH2 IH3]; cbn; [repeat constructor|].
  constructor. apply IH2. intros; apply HF'; right; auto. apply Forall_app. split; auto. constructor; auto. apply HF'; left; auto.
Qed.
Lemma key_eq C prop p : sort_key A C prop p = order_property A C prop p.
Proof. destruct prop; cbn; auto. unfold Vm_to_rho, Rdiv. ring. Qed.
Lemma combine_map (key : phase -> R) l : combine (map key l) l = map (fun p => (key p, p)) l.
Proof. induction l; cbn; auto. now f_equal. Qed.
Lemma mini_sort_ok C m prop rv l l' : mini_sort_phases A C m prop rv l = Ok l' -> Permutation l l' /\ in_order rv (order_property A C prop) l'.
Proof.
  destruct m; [|discriminate]. cbn. rewrite combine_map. destruct (py_sorted _ _) as [k|] eqn:E; [|discriminate]. intros [= <-]. apply sorted_ok in E. destruct E as [P S].
  assert (PM : Permutation l (map snd k)). { rewrite <- P. rewrite map_map. now rewrite map_id. }
  apply (SS_map (order_property A C prop)) in S.
  2: { intros p Hp. apply (Permutation_in p (Permutation_sym P)) in Hp. apply in_map_iff in Hp. destruct Hp as [q [<- _]]. cbn. apply key_eq. }
  destruct rv; split; auto.
  - now rewrite <- Permutation_rev.
  - unfold in_order. exact (SS_rev _ _ S).
Qed.
Lemma pop_perm k l : (k < length l)%nat -> Permutation l (nth k l 0%nat :: pop k l).
Proof.
  revert k. induction l as [|x l IH]; intros k H; cbn in H; [lia|]. destruct k as [|k]; cbn; auto. unfold pop in *. cbn. rewrite perm_swap. constructor. apply IH. lia.
Qed.
Lemma water_perm C w l : Permutation l (place_water A C w l).
Proof.
  unfold place_water. destruct w, (k_water_index C) as [wi|]; auto; destruct (py_max _) as [m|] eqn:E; auto; destruct (Rltb _ _); auto; apply py_max_in in E; destruct E as [E _]; apply index_of_spec in E; rewrite map_length in E; destruct E as [E _].
  - now apply pop_perm.
  - rewrite <- Permutation_cons_append. now apply pop_perm.
Qed.
Lemma sort_perm C s l d l' d' : sort_phases A C s l d = Ok (l', d') -> Permutation l l' /\ Permutation d d'.
Proof.
  unfold sort_phases. destruct (1 <? length l)%nat.
  - destruct (mini_sort_phases _ _ _ _ _ l) as [x|] eqn:E; [|discriminate]. apply mini_sort_ok in E. destruct E as [E _]. pose proof (water_perm C (s_water s) x) as W.
    destruct (1 <? length d)%nat; [destruct (mini_sort_phases _ _ _ _ _ d) as [y|] eqn:F; [|discriminate]; apply mini_sort_ok in F; destruct F as [F _]|]; intros [= <- <-]; split; auto; now rewrite E.
  - destruct (1 <? length d)%nat; [destruct (mini_sort_phases _ _ _ _ _ d) as [y|] eqn:F; [|discriminate]; apply mini_sort_ok in F; destruct F as [F _]|]; intros [= <- <-]; split; auto.
Qed.

(* ---- the fractions ---- *)
Lemma lookup_cons p q ps b bs : lookup p (q :: ps) (b :: bs) = if (q =? p)%nat then [b] else lookup p ps bs.
Proof. reflexivity. Qed.
Lemma lookup_combine phases betas : NoDup phases -> length betas = length phases -> exists f : phase -> R, combine phases betas = map (fun p => (p, f p)) phases /\ forall p, In p phases -> lookup p phases betas = [f p].
Proof.
  revert betas. induction phases as [|p l IH]; intros [|b bs] HN HL; try discriminate.
  - exists (fun _ => 0). split; auto. intros ? [].
  - inversion HN; subst. destruct (IH bs) as [f [H3 H4]]; auto. exists (fun q => if (p =? q)%nat then b else f q). cbn [combine map lookup]. split.
    + rewrite H3. rewrite Nat.eqb_refl. f_equal. apply map_ext_in. intros a Ha. destruct (Nat.eqb_spec p a) as [->|]; [contradiction|reflexivity].
    + intros q [<-|Hq]; [now rewrite Nat.eqb_refl|]. destruct (Nat.eqb_spec p q); [reflexivity|auto].
Qed.
Lemma flat_lookup (phases : list phase) betas f l : (forall p, In p phases -> lookup p phases betas = [f p]) -> (forall p, In p l -> In p phases) -> flat_map (fun p => lookup p phases betas) l = map f l.
Proof. intros H. induction l as [|x l IH]; intros HI; cbn; auto. rewrite H, IH; auto. intros; apply HI; right; auto. apply HI; left; auto. Qed.
Lemma combine_self (f : phase -> R) l : combine l (map f l) = map (fun p => (p, f p)) l.
Proof. induction l; cbn; auto. now f_equal. Qed.
Lemma reorder_ok gas l d phases betas : NoDup phases -> length betas = length phases -> Permutation phases (output gas l d) -> Permutation (combine phases betas) (combine (output gas l d) (reorder gas l d phases betas)) /\ length (reorder gas l d phases betas) = length phases.
Proof.
  intros HN HL HP. destruct (lookup_combine phases betas HN HL) as [f [H1 H2]]. unfold reorder. fold (output gas l d).
  rewrite (flat_lookup phases betas f) by first [exact H2 | intros p Hp; apply (Permutation_in p (Permutation_sym HP) Hp)].
  rewrite H1, combine_self, map_length. split; [now apply Permutation_map|]. symmetry. now apply Permutation_length.
Qed.

(* ---- the theorems ---- *)
(* Every input phase is returned exactly once and keeps its own fraction; the fractions are in the documented order gas, liquids, solids. *)
Theorem C35_phases_and_fractions_aligned C s phases betas gas liquids solids betas' : NoDup phases -> (forall p, In p phases -> known_force A p) -> length betas = length phases ->
  identify_sort_phases A C s skip phases (Some betas) = Ok (gas, liquids, solids, betas') ->
  Permutation phases (output gas liquids solids) /\ Permutation (combine phases betas) (combine (output gas liquids solids) betas') /\ length betas' = length phases.
Proof.
  intros HN HK HL. unfold identify_sort_phases. destruct (identity_phase_states A skip phases) as [[[g l] d]|] eqn:E; [|discriminate].
  destruct (identity_ok phases g l d HN HK E) as (-> & _ & _ & HP & _).
  assert (P0 : Permutation phases (output g l (solids0 phases))). { unfold output. rewrite (classes phases HK) at 1. rewrite !app_assoc. now apply Permutation_app_tail. }
  clear HP E. generalize dependent (solids0 phases). intros d P0.
  destruct (Nat.eqb_spec (length betas) 1) as [E1|_].
  - intros [= <- <- <- <-]. destruct phases as [|p [|q phases]]; cbn in HL; try lia. splits; auto.
    apply Permutation_length_1_inv in P0 as P0'. rewrite P0'. auto.
  - destruct (_ || _).
    + destruct (sort_phases A C s l d) as [[l' d']|] eqn:F; [|discriminate]. intros [= <- <- <- <-]. apply sort_perm in F. destruct F as [F1 F2].
      assert (P1 : Permutation phases (output g l' d')). { rewrite P0. unfold output. apply Permutation_app_head. now apply Permutation_app. }
      split; auto. now apply reorder_ok.
    + destruct (_ && _) eqn:F.
      * intros [= <- <- <- <-]. split; auto. apply andb_prop in F. destruct F as [F G]. apply andb_prop in F. destruct F as [F1 F2]. apply Nat.eqb_eq in F1, F2. destruct g as [g|]; [|discriminate]. apply Nat.eqb_eq in G.
        destruct phases as [|p [|q [|]]]; try discriminate. destruct l as [|l1 [|]]; try discriminate. cbn in G. subst p. assert (PL := Permutation_length P0). unfold output in *. cbn in P0, PL. destruct d; [|cbn in PL; lia].
        apply Permutation_cons_inv in P0. apply Permutation_length_1 in P0. subst. cbn. splits; auto.
      * intros [= <- <- <- <-]. split; auto. now apply reorder_ok.
Qed.
(* the state given to each phase *)
Theorem C35_states C s T phases betas gas liquids solids betas' : NoDup phases -> (forall p, In p phases -> known_force A p) -> score_T A phases T ->
  identify_sort_phases A C s skip phases (Some betas) = Ok (gas, liquids, solids, betas') ->
  (forall p, In p solids <-> In p phases /\ must_be_solid A skip p) /\
  (forall g, gas = Some g -> In g phases /\ may_be_gas A skip T g) /\
  (gas = None <-> forall p, In p phases -> ~ may_be_gas A skip T p) /\
  (forall p, In p liquids <-> In p phases /\ ~ must_be_solid A skip p /\ gas <> Some p).
Proof.
  intros HN HK HT H.
  assert (K : exists l, identity_phase_states A skip phases = Ok (gas, l, solids0 phases) /\ Permutation l liquids /\ Permutation (solids0 phases) solids).
  { unfold identify_sort_phases in H. destruct (identity_phase_states A skip phases) as [[[g l] d]|] eqn:E; [|discriminate]. destruct (identity_ok phases g l d HN HK E) as (-> & _). exists l.
    destruct (_ =? 1)%nat; [injection H as <- <- <- <-; auto|]. destruct (_ || _).
    - destruct (sort_phases A C s l (solids0 phases)) as [[l' d']|] eqn:F; [|discriminate]. injection H as <- <- <- <-. apply sort_perm in F. tauto.
    - destruct (_ && _); injection H as <- <- <- <-; auto. }
  destruct K as [l (E & PL & PD)]. destruct (identity_ok phases gas l _ HN HK E) as (_ & H1 & H2 & H3 & H4 & H5). 
  assert (HS : forall p, In p solids <-> In p phases /\ must_be_solid A skip p). { intros p. rewrite <- in_solids. split; apply Permutation_in; auto. now symmetry. }
  splits; auto.
  - intros g Hg. now apply (in_gases phases T g HT), H2.
  - rewrite H1. split.
    + intros Hn p Hp Hm. assert (In p (gases phases)) by (now apply (in_gases phases T)). rewrite Hn in H0. contradiction.
    + intros Hp. destruct (gases phases) as [|g gs] eqn:EG; auto. exfalso. assert (In g (gases phases)) by (rewrite EG; left; auto). apply (in_gases phases T g HT) in H0. destruct H0 as [? ?]. eapply Hp; eauto.
  - assert (PA : Permutation phases (output gas l (solids0 phases))). { unfold output. rewrite (classes phases HK) at 1. rewrite !app_assoc. now apply Permutation_app_tail. }
    pose proof (Permutation_NoDup PA HN) as ND. intros p. split.
    + intros Hp. assert (Hl : In p l) by (eapply Permutation_in; [symmetry; exact PL|exact Hp]).
      assert (Hi : In p phases). { eapply Permutation_in; [symmetry; exact PA|]. unfold output. apply in_or_app; right. apply in_or_app; auto. }
      splits; auto.
      * intros Hm. assert (In p (solids0 phases)) by (apply in_solids; auto). unfold output in ND. apply nodup_right in ND. revert Hl H0 ND. clear. intros Hl H0 ND. induction l as [|x l IH]; [contradiction|]. cbn in ND. inversion ND; subst. destruct Hl as [->|Hl]; auto. match goal with H : ~ In _ _ |- _ => apply H, in_or_app; auto end.
      * intros ->. unfold output in ND. cbn in ND. inversion ND; subst. match goal with H : ~ In _ (_ ++ _) |- _ => apply H, in_or_app; auto end.
    + intros (Hi & Hm & Hg). apply (Permutation_in p PL). apply (Permutation_in p PA) in Hi. unfold output in Hi. apply in_app_or in Hi. destruct Hi as [Hi|Hi]; [destruct gas; [destruct Hi as [->|[]]; congruence|contradiction]|]. apply in_app_or in Hi. destruct Hi as [Hi|Hi]; auto. apply in_solids in Hi. tauto.
Qed.
(* without forced gases the gas is the most gas-like candidate *)
Theorem C35_gas_is_best C s T phases betas g liquids solids betas' : (forall p, In p phases -> a_force A p <> Some Force_g) -> score_T A phases T ->
  identify_sort_phases A C s skip phases (Some betas) = Ok (Some g, liquids, solids, betas') -> forall p, In p phases -> may_be_gas A skip T p -> a_VL A T p <= a_VL A T g.
Proof.
  intros HG HT H p Hp Hm.
  assert (K : exists l d, identity_phase_states A skip phases = Ok (Some g, l, d)).
  { unfold identify_sort_phases in H. destruct (identity_phase_states A skip phases) as [[[g' l] d]|]; [|discriminate]. exists l, d. 
    destruct (_ =? 1)%nat; [injection H as <- <- <- <-; auto|]. destruct (_ || _).
    - destruct (sort_phases A C s l d) as [[l' d']|] eqn:F; [|discriminate]. injection H as <- <- <- <-. auto.
    - destruct (_ && _); injection H as <- <- <- <-; auto. }
  destruct K as (l & d & E). rewrite identity_eq in E. assert (IG : In p (gases phases)) by (apply (in_gases phases T); auto).
  assert (GF : gases phases = filter (isG (a_T A (hd 0%nat (unknown A phases)))) (unknown A phases)). { unfold gases. replace (with_force A Force_g phases) with (@nil phase); auto. symmetry. destruct (with_force A Force_g phases) as [|x m] eqn:F; auto. exfalso. assert (In x (with_force A Force_g phases)) by (rewrite F; left; auto). apply in_force in H0; [|discriminate]. eapply HG; apply H0. }
  assert (EQ : scores phases = map (a_VL A T) (gases phases)). { unfold scores. rewrite <- GF. apply map_ext_in. intros q Hq. rewrite GF in Hq. apply filter_In in Hq. now rewrite (hd_T phases T q HT (proj1 Hq)). }
  destruct (gases phases) as [|g1 [|g2 gs]] eqn:EG; [discriminate| |].
  - injection E as <- _ _. destruct IG as [->|[]]. lra.
  - rewrite <- EG in *. rewrite EQ in E. destruct (py_max _) as [m|] eqn:EM; [|discriminate]. injection E as <- _ _. apply py_max_in in EM. destruct EM as [EM1 EM2]. apply index_of_spec in EM1. destruct EM1 as [L1 L2].
    rewrite map_length in L1. rewrite nth_indep with (d' := a_VL A T 0%nat) in L2 by (rewrite map_length; lia). rewrite map_nth in L2. rewrite L2. apply EM2. now apply in_map.
Qed.

(* the order of the solids, and of the liquids when water is not special *)
Lemma short_order r (key : phase -> R) l : (length l <= 1)%nat -> in_order r key l.
Proof. destruct l as [|a [|]]; cbn; intros; try lia; repeat constructor. Qed.
Lemma sorted_state C s phases betas gas liquids solids betas' : NoDup phases -> (forall p, In p phases -> known_force A p) -> length betas = length phases ->
  identify_sort_phases A C s skip phases (Some betas) = Ok (gas, liquids, solids, betas') ->
  in_order (s_higher_first s) (order_property A C (s_solid_prop s)) solids /\
  exists l, in_order (s_higher_first s) (order_property A C (s_liquid_prop s)) l /\ ((liquids = l /\ (length l <= 1)%nat) \/ liquids = place_water A C (s_water s) l).
Proof.
  intros HN HK HL H. pose proof (C35_phases_and_fractions_aligned C s phases betas gas liquids solids betas' HN HK HL H) as [PP _].
  unfold identify_sort_phases in H. destruct (identity_phase_states A skip phases) as [[[g l] d]|]; [|discriminate].
  destruct (Nat.eqb_spec (length betas) 1) as [E|E].
  - injection H as <- <- <- <-. apply Permutation_length in PP. unfold output in PP. rewrite !app_length in PP. split; [apply short_order; lia|]. exists l. split; [apply short_order; lia|left; split; auto; lia].
  - destruct (1 <? length l)%nat eqn:L1, (1 <? length d)%nat eqn:L2; cbn [orb] in H; [unfold sort_phases in H; rewrite L1, L2 in H ..|].
    + destruct (mini_sort_phases _ _ _ _ _ l) as [x|] eqn:F; [|discriminate]. destruct (mini_sort_phases _ _ _ _ _ d) as [y|] eqn:G; [|discriminate]. injection H as <- <- <- <-. apply mini_sort_ok in F, G. split; [apply G|]. exists x. split; [apply F|auto].
    + destruct (mini_sort_phases _ _ _ _ _ l) as [x|] eqn:F; [|discriminate]. injection H as <- <- <- <-. apply mini_sort_ok in F. apply Nat.ltb_ge in L2. split; [now apply short_order|]. exists x. split; [apply F|auto].
    + destruct (mini_sort_phases _ _ _ _ _ d) as [y|] eqn:G; [|discriminate]. injection H as <- <- <- <-. apply mini_sort_ok in G. apply Nat.ltb_ge in L1. split; [apply G|]. exists l. split; [now apply short_order|auto].
    + apply Nat.ltb_ge in L1, L2. assert (solids = d /\ liquids = l) as [-> ->] by (destruct (_ && _); injection H as <- <- <- <-; auto). split; [now apply short_order|]. exists l. split; [now apply short_order|auto].
Qed.
Theorem C35_solids_in_order C s phases betas gas liquids solids betas' : NoDup phases -> (forall p, In p phases -> known_force A p) -> length betas = length phases ->
  identify_sort_phases A C s skip phases (Some betas) = Ok (gas, liquids, solids, betas') -> in_order (s_higher_first s) (order_property A C (s_solid_prop s)) solids.
Proof. intros. eapply sorted_state; eauto. Qed.
Theorem C35_liquids_in_order C s phases betas gas liquids solids betas' : NoDup phases -> (forall p, In p phases -> known_force A p) -> length betas = length phases -> s_water s = WATER_NOT_SPECIAL \/ k_water_index C = None ->
  identify_sort_phases A C s skip phases (Some betas) = Ok (gas, liquids, solids, betas') -> in_order (s_higher_first s) (order_property A C (s_liquid_prop s)) liquids.
Proof.
  intros HN HK HL HW H. destruct (sorted_state C s phases betas gas liquids solids betas' HN HK HL H) as [_ [l [HO [[-> _]| ->]]]]; auto. unfold place_water. destruct HW as [->| ->]; auto. destruct (s_water s); auto.
Qed.
(* water first or last: the liquid richest in water is moved to that end and the others stay in order; without water in any liquid all are in order *)
Lemma skipn_1 {X} k (l : list X) : skipn 1 (skipn k l) = skipn (S k) l.
Proof. revert l. induction k as [|k IH]; intros [|x l]; auto. exact (IH l). Qed.
Lemma pop_sorted r k l : StronglySorted r l -> StronglySorted r (pop k l).
Proof.
  intros H. revert k. induction H as [|a l HS IH HF]; intros k; [destruct k; constructor|]. destruct k as [|k]; unfold pop; cbn; auto. constructor; [apply IH|]. rewrite Forall_forall in *. intros x Hx. apply HF. apply in_app_or in Hx. rewrite <- (firstn_skipn k l). apply in_or_app. destruct Hx as [Hx|Hx]; auto. right.
  rewrite <- (firstn_skipn 1 (skipn k l)). apply in_or_app. right. rewrite skipn_1. exact Hx.
Qed.
Theorem C35_water C s wi phases betas gas liquids solids betas' : NoDup phases -> (forall p, In p phases -> known_force A p) -> length betas = length phases -> s_water s <> WATER_NOT_SPECIAL -> k_water_index C = Some wi ->
  identify_sort_phases A C s skip phases (Some betas) = Ok (gas, liquids, solids, betas') ->
  (exists w others, liquids = match s_water s with WATER_LAST => others ++ [w] | _ => w :: others end /\ ((length liquids = 1%nat) \/ water_rich A wi liquids w) /\ in_order (s_higher_first s) (order_property A C (s_liquid_prop s)) others) \/
  ((forall p, In p liquids -> a_zs A p wi <= 1 / 10000) /\ in_order (s_higher_first s) (order_property A C (s_liquid_prop s)) liquids).
Proof.
  intros HN HK HL HW HI H. destruct (sorted_state C s phases betas gas liquids solids betas' HN HK HL H) as [_ [l [HO [[-> L1]|E]]]].
  - destruct l as [|w [|]]; cbn in L1; try lia; [right; split; auto; intros ? []|]. left. exists w, []. splits; auto. destruct (s_water s); auto. apply short_order; cbn; lia.
  - unfold place_water in E. rewrite HI in E. destruct (py_max (map (fun p => a_zs A p wi) l)) as [m|] eqn:EM.
    2: { apply py_max_none in EM. destruct l; [|discriminate]. assert (liquids = []) as -> by (destruct (s_water s); auto). right. split; [intros ? []|constructor]. }
    apply py_max_in in EM. destruct EM as [E1 E2]. destruct (index_of_spec _ _ E1) as [E3 E4]. set (k := index_of m _) in *. rewrite map_length in E3. rewrite nth_indep with (d' := a_zs A 0%nat wi) in E4 by (rewrite map_length; lia). rewrite (map_nth (fun p => a_zs A p wi)) in E4.
    destruct (Rltb_spec (1 / 10000) m) as [F|F].
    + left. exists (nth k l 0%nat), (pop k l). split; [destruct (s_water s); auto; congruence|]. split; [|now apply pop_sorted]. right.
      assert (PL : Permutation l liquids). { rewrite E. destruct (s_water s); [| |auto]; [now apply pop_perm|]. rewrite <- Permutation_cons_append. now apply pop_perm. }
      split; [eapply Permutation_in; [exact PL|now apply nth_In]|]. rewrite E4. split; auto. intros p Hp. apply E2. apply (in_map (fun p => a_zs A p wi)). eapply Permutation_in; [symmetry; exact PL|exact Hp].
    + right. assert (liquids = l) as -> by (destruct (s_water s); auto). split; auto. intros p Hp. apply Rle_trans with m; [|lra]. apply E2. now apply (in_map (fun p => a_zs A p wi)).
Qed.
(* the call succeeds unless two phases to be sorted tie or several forced gases are the only candidates *)
Definition no_ties (C : constants) (prop : sort_prop) (phases : list phase) : Prop := forall p q, In p phases -> In q phases -> p <> q -> order_property A C prop p <> order_property A C prop q.
Lemma no_clash l : NoDup (map fst l) -> has_clash A l = false.
Proof.
  induction l as [|a l IH]; cbn; intros H; auto. inversion H; subst. rewrite IH by auto. rewrite orb_false_r. apply not_true_iff_false. intros E. apply existsb_exists in E. destruct E as [b [Hb E]]. unfold clash in E. apply andb_prop in E. destruct E as [E _]. destruct (Reqb_spec (fst a) (fst b)); [|discriminate]. apply H2. rewrite e. now apply in_map.
Qed.
Lemma mini_sort_total C prop rv l : NoDup l -> no_ties C prop l -> exists l', mini_sort_phases A C PROP_SORT prop rv l = Ok l'.
Proof.
  intros HN HT. cbn. rewrite combine_map. unfold py_sorted. rewrite no_clash; [eauto|]. rewrite map_map. cbn. clear rv. induction l as [|a l IH]; cbn; [constructor|]. inversion HN; subst. constructor.
  - intros E. apply in_map_iff in E. destruct E as [b [E Hb]]. rewrite !key_eq in E. apply (HT b a); cbn; auto. intros ->. contradiction.
  - apply IH; auto. intros p q Hp Hq. apply HT; right; auto.
Qed.
Theorem C35_completes C s T phases betas : NoDup phases -> (forall p, In p phases -> known_force A p) -> score_T A phases T -> s_liquid_method s = PROP_SORT -> s_solid_method s = PROP_SORT ->
  no_ties C (s_liquid_prop s) phases -> no_ties C (s_solid_prop s) phases ->
  (forall p q, In p phases -> In q phases -> a_force A p = Some Force_g -> a_force A q = Some Force_g -> p <> q -> exists r, In r phases /\ a_force A r = None /\ may_be_gas A skip T r) ->
  exists r, identify_sort_phases A C s skip phases (Some betas) = Ok r.
Proof.
  intros HN HK HT M1 M2 T1 T2 HG.
  assert (NG : NoDup (gases phases ++ liquids0 phases ++ solids0 phases)) by (apply (Permutation_NoDup (classes phases HK)); auto).
  assert (K : exists g l d, identity_phase_states A skip phases = Ok (g, l, d)).
  { rewrite identity_eq. destruct (gases phases) as [|g1 [|g2 gs]] eqn:EG; [eauto..|]. destruct (py_max (scores phases)) as [m|] eqn:EM; [eauto|]. exfalso. apply py_max_none in EM. unfold scores in EM. apply map_eq_nil in EM.
    unfold gases in EG. rewrite EM, app_nil_r in EG. assert (I1 : In g1 (with_force A Force_g phases)) by (rewrite EG; left; auto). assert (I2 : In g2 (with_force A Force_g phases)) by (rewrite EG; right; left; auto).
    apply in_force in I1, I2; try discriminate. destruct I1 as [I1 F1], I2 as [I2 F2]. destruct (HG g1 g2) as [r (R1 & R2 & R3)]; auto.
    + intros ->. inversion NG; subst. match goal with H : ~ In _ _ |- _ => apply H end. left; auto.
    + assert (In r (gases phases)) by (apply (in_gases phases T); auto). unfold gases in H. rewrite EM, app_nil_r in H. apply in_force in H; [|discriminate]. destruct H. congruence. }
  destruct K as (g & l & d & E). unfold identify_sort_phases. rewrite E. destruct (_ =? 1)%nat; [eauto|]. destruct (_ || _); [|destruct (_ && _); eauto].
  destruct (identity_ok phases g l d HN HK E) as (-> & _ & _ & HP & _).
  assert (PA : Permutation phases (output g l (solids0 phases))). { unfold output. rewrite (classes phases HK) at 1. rewrite !app_assoc. now apply Permutation_app_tail. }
  pose proof (Permutation_NoDup PA HN) as ND. unfold output in ND. apply nodup_right in ND.
  assert (S1 : no_ties C (s_liquid_prop s) l). { intros p q Hp Hq. apply T1; apply (Permutation_in _ (Permutation_sym PA)); unfold output; apply in_or_app; right; apply in_or_app; auto. }
  assert (S2 : no_ties C (s_solid_prop s) (solids0 phases)). { intros p q Hp Hq. apply T2; apply (Permutation_in _ (Permutation_sym PA)); unfold output; apply in_or_app; right; apply in_or_app; auto. }
  destruct (mini_sort_total C (s_liquid_prop s) (s_higher_first s) l (nodup_left _ _ ND) S1) as [l' L']. destruct (mini_sort_total C (s_solid_prop s) (s_higher_first s) (solids0 phases) (nodup_right _ _ ND) S2) as [d' D'].
  unfold sort_phases. rewrite M1, M2, L', D'. destruct (1 <? length l)%nat, (1 <? _)%nat; eauto.
Qed.
End Proofs.

(* ---- what fails ---- *)
Definition demo (force : phase -> option forced) (score rho : phase -> R) : attributes := Build_attributes force (fun _ => 300) (fun _ => score) (fun _ => -1) (fun p => p) (fun _ _ => 1 / 2) (fun p => / rho p) rho rho rho.
Definition demo_constants : constants := Build_constants 2 (fun _ => 18) None.
Definition demo_settings : settings := Build_settings PROP_SORT DENSITY PROP_SORT DENSITY true WATER_NOT_SPECIAL.
(* two liquids of the same density cannot be ordered *)
Theorem C35_equal_density_refuted : exists A phases betas, NoDup phases /\ (forall p, In p phases -> known_force A p) /\ length betas = length phases /\ identify_sort_phases A demo_constants demo_settings true phases (Some betas) = Err TypeError_lt.
Proof.
  exists (demo (fun _ => Some Force_l) (fun _ => 0) (fun _ => 5)), [0%nat; 1%nat], [1/2; 1/2]. splits; try reflexivity; try (intros; discriminate). repeat constructor; cbn; intuition discriminate.
  unfold identify_sort_phases, identity_phase_states, classify. cbn. unfold sort_phases. cbn. unfold py_sorted. cbn. unfold clash. cbn. rewrite Reqb_true by reflexivity. reflexivity.
Qed.
(* two forced gases and nothing else raise *)
Theorem C35_two_forced_gases_refuted : exists A phases betas, NoDup phases /\ (forall p, In p phases -> known_force A p) /\ length betas = length phases /\ identify_sort_phases A demo_constants demo_settings true phases (Some betas) = Err ValueError_max.
Proof.
  exists (demo (fun _ => Some Force_g) (fun _ => 0) (fun _ => 5)), [0%nat; 1%nat], [1/2; 1/2]. splits; try reflexivity; try (intros; discriminate). repeat constructor; cbn; intuition discriminate.
Qed.
(* a forced gas shifts the scores against the candidates: the phase with the highest score is the liquid, a phase with a lower score the gas *)
Theorem C35_forced_gas_refuted : exists A phases betas g l betas', NoDup phases /\ (forall p, In p phases -> known_force A p) /\ length betas = length phases /\
  identify_sort_phases A demo_constants demo_settings true phases (Some betas) = Ok (Some g, l, [], betas') /\ a_force A g = None /\ exists p, In p l /\ a_force A p = None /\ a_VL A 300 g < a_VL A 300 p.
Proof.
  exists (demo (fun p => if (p =? 0)%nat then Some Force_g else None) INR INR), [0%nat; 1%nat; 2%nat], [1/4; 1/4; 1/2], 1%nat, [2%nat; 0%nat], [1/4; 1/2; 1/4]. splits; try reflexivity.
  - repeat constructor; cbn; intuition discriminate.
  - intros p Hp. unfold known_force. cbn. destruct (p =? 0)%nat; discriminate.
  - unfold identify_sort_phases, identity_phase_states, classify, VL_scores, S_scores. cbn -[INR]. rewrite !Rleb_true by (apply pos_INR). cbn -[INR]. rewrite !(Rltb_true (INR 1) (INR 2)) by (cbn; lra). rewrite (Reqb_false (INR 1)) by (cbn; lra). rewrite (Reqb_true (INR 2)) by reflexivity. cbn -[INR].
    unfold sort_phases. cbn -[INR]. unfold py_sorted. cbn -[INR]. unfold clash. cbn -[INR]. rewrite (Reqb_false (INR 0)) by (cbn; lra). cbn -[INR].
 rewrite (Rltb_false (INR 2) (INR 0)) by (cbn; lra). cbn. reflexivity.
  - exists 2%nat. splits; cbn; auto; lra.
Qed.
(* betas=None is tested for after its length has been taken *)
Theorem C35_no_fractions_refuted A C s skip phases r : identify_sort_phases A C s skip phases None <> Ok r.
Proof. unfold identify_sort_phases. destruct (identity_phase_states A skip phases) as [[[? ?] ?]|]; discriminate. Qed.

(* two liquids and a gas, in the wrong order *)
Example C35_hypotheses_met : exists A phases betas r, NoDup phases /\ (forall p, In p phases -> known_force A p) /\ length betas = length phases /\ score_T A phases 300 /\ identify_sort_phases A demo_constants demo_settings true phases (Some betas) = Ok r /\
  r = (Some 2%nat, [1%nat; 0%nat], [], [1/2; 1/3; 1/6]).
Proof.
  exists (demo (fun p => None) (fun p => if (p =? 2)%nat then 1 else -1) INR), [0%nat; 1%nat; 2%nat], [1/6; 1/3; 1/2], (Some 2%nat, [1%nat; 0%nat], [], [1/2; 1/3; 1/6]). splits; try reflexivity.
  - repeat constructor; cbn; intuition discriminate.
  - intros p Hp. discriminate.
  - intros p l [= <- <-]. reflexivity.
  - unfold identify_sort_phases, identity_phase_states, classify, VL_scores, S_scores. cbn -[INR]. rewrite !(Rleb_false 0 (-1)), (Rleb_true 0 1) by lra. cbn -[INR].
    unfold sort_phases. cbn -[INR]. unfold py_sorted. cbn -[INR]. unfold clash. cbn -[INR]. rewrite (Reqb_false (INR 0)) by (cbn; lra). cbn -[INR]. rewrite (Rltb_false (INR 1) (INR 0)) by (cbn; lra). cbn. reflexivity.
Qed.
