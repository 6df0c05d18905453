(* C65: the groups assigned to a molecule share no atom, and success means that they cover it. *)
From Coq Require Import List Bool Arith ZArith Ascii String Lia Permutation Sorted DecimalString DecimalZ DecimalPos.
From Verif Require Import Model_fragment.
Import ListNotations.
Local Open Scope nat_scope.
Local Open Scope list_scope.

(* --- specification --- *)
(* the assignments (group, match) of a dictionary group -> matches, and the atoms in them *)
Definition pairs (d : list (nat * list (list nat))) : list (nat * list nat) := flat_map (fun kl => map (fun m => (fst kl, m)) (snd kl)) d.
Definition atoms_of (l : list (nat * list nat)) : list nat := List.concat (map snd l).
Definition overlap (a b : list nat) : Prop := exists x, In x a /\ In x b.
(* matches of RDKit: tuples of different atoms of the molecule; the molecule with explicit hydrogens has other matches of a pure hydrogen group
   only if it is that hydrogen *)
Definition ordinary (mol : molecule) (g : group) : Prop :=
  (forall m, In m (g_hits g) -> m <> [] /\ NoDup m /\ incl m (m_atoms mol)) /\
  (g_hits g = [] -> g_hits_H g = [] \/ (m_all mol = m_H mol /\ m_H mol = g_H g)).
Definition has_priority (g : group) : Prop := g_prio g <> None.
Definition priority_of (g : group) : Z := match g_prio g with Some p => p | None => 0%Z end.
(* the hydrogens a match of a group stands for *)
Definition hydrogens_of (mol : molecule) (g : group) (m : list nat) : nat := if g_from_smarts g then list_sum (map (m_H_at mol) m) else g_H g.

(* --- lists --- *)
Lemma mem_In x s : mem x s = true <-> In x s.
Proof. unfold mem. rewrite existsb_exists. split; [intros [y [H1 H2]]; apply Nat.eqb_eq in H2; subst; exact H1|intros H; exists x; split; [exact H|apply Nat.eqb_refl]]. Qed.
Lemma union_spec t : forall s, (forall x, In x (union s t) <-> In x s \/ In x t) /\ (NoDup s -> NoDup (union s t)).
Proof.
  induction t as [|y t IH]; intros s; cbn; [split; [tauto|auto]|].
  destruct (IH (add_atom s y)) as [H1 H2]. unfold union in *. unfold add_atom in *. destruct (mem y s) eqn:E.
  - apply mem_In in E. split; [intros x; rewrite H1; split; [tauto|intros [H|[H|H]]; auto; subst; auto]|exact H2].
  - assert (Hn : ~ In y s) by (intros H; apply mem_In in H; congruence). split.
    + intros x. rewrite H1, in_app_iff. cbn. tauto.
    + intros Hs. apply H2. apply NoDup_Add with (a := y) (l := s); [|split; assumption]. rewrite <- (app_nil_r s) at 1. apply Add_app.
Qed.
Lemma meets_spec a b : meets a b = true <-> overlap a b.
Proof. unfold meets, overlap. rewrite existsb_exists. split; intros [x [H1 H2]]; exists x; rewrite mem_In in *; auto. Qed.
Lemma set_eq_spec a b : set_eq a b = true <-> (forall x, In x a <-> In x b).
Proof.
  unfold set_eq, subset. rewrite andb_true_iff, !forallb_forall. split.
  - intros [H1 H2] x. split; intros H; apply mem_In; auto.
  - intros H. split; intros x Hx; apply mem_In, H, Hx.
Qed.
Lemma ignored_spec k m ig : ignored k m ig = true <-> In (k, m) ig.
Proof.
  unfold ignored, match_eqb. rewrite existsb_exists. split.
  - intros [[q v] [H1 H2]]. apply andb_true_iff in H2. destruct H2 as [H2 H3]. apply Nat.eqb_eq in H2. cbn [fst snd] in *. destruct (list_eq_dec Nat.eq_dec v m); [subst; exact H1|discriminate].
  - intros H. exists (k, m). split; [exact H|]. cbn [fst snd]. rewrite Nat.eqb_refl. destruct (list_eq_dec Nat.eq_dec m m); [reflexivity|contradiction].
Qed.
Lemma sum_list l : sum l = list_sum l. Proof. reflexivity. Qed.

(* --- dictionaries --- *)
Lemma pairs_dset k m d : Permutation (pairs (dset k (match dget k d with Some l => l | None => [] end ++ [m]) d)) ((k, m) :: pairs d).
Proof.
  induction d as [|[q l] d IH]; [reflexivity|]. cbn [dget dset]. destruct (Nat.eqb_spec q k) as [->|Hq].
  - unfold pairs. cbn [flat_map fst snd]. rewrite map_app, <- app_assoc. cbn [map app]. symmetry. apply Permutation_middle.
  - unfold pairs in *. cbn [flat_map fst snd]. rewrite IH. symmetry. apply Permutation_middle.
Qed.
Lemma counts_dset k m d : dset k (S (match dget k (map (fun kl => (fst kl, List.length (snd kl))) d) with Some n => n | None => 0 end)) (map (fun kl => (fst kl, List.length (snd kl))) d) =
  map (fun kl => (fst kl, List.length (snd kl))) (dset k (match dget k d with Some l => l | None => [] end ++ [m]) d : list (nat * list match_t)).
Proof.
  induction d as [|[q l] d IH]; [reflexivity|]. cbn [map dget dset fst snd]. destruct (Nat.eqb_spec q k) as [->|Hq].
  - cbn [map fst snd]. rewrite app_length, Nat.add_comm. reflexivity.
  - cbn [map fst snd]. f_equal. exact IH.
Qed.
Lemma keys_dset {A} k (v : A) d : NoDup (map fst d) -> NoDup (map fst (dset k v d)) /\ (forall q, In q (map fst (dset k v d)) <-> q = k \/ In q (map fst d)).
Proof.
  induction d as [|[q w] d IH]; intros H; cbn; [split; [repeat constructor; auto|intros; intuition]|].
  inversion H as [|? ? H1 H2]; subst. destruct (IH H2) as [I1 I2]. destruct (Nat.eqb_spec q k) as [->|Hq]; cbn.
  - split; [constructor; assumption|]. intros q. intuition.
  - split; [constructor; [rewrite I2; intros [E|E]; [congruence|contradiction]|exact I1]|]. intros r. rewrite I2. intuition.
Qed.
Lemma dget_dset {A} k (v : A) d q : dget q (dset k v d) = if k =? q then Some v else dget q d.
Proof.
  induction d as [|[r w] d IH]; cbn; [reflexivity|]. destruct (Nat.eqb_spec r k) as [->|H]; cbn; [destruct (k =? q); reflexivity|].
  destruct (Nat.eqb_spec r q) as [->|H2]; [destruct (Nat.eqb_spec k q); [congruence|reflexivity]|exact IH].
Qed.
Lemma atoms_perm l l' : Permutation l l' -> Permutation (atoms_of l) (atoms_of l').
Proof. unfold atoms_of. intros H. induction H; cbn; [reflexivity|apply Permutation_app_head; assumption|rewrite !app_assoc; apply Permutation_app_tail, Permutation_app_comm|etransitivity; eassumption]. Qed.

(* --- the greedy run --- *)
Section Run.
  Variables (mol : molecule) (ig : list (nat * list nat)).
  Definition accept (g : group) (m : list nat) : Prop := ~ ((forall x, In x m <-> In x (m_atoms mol)) /\ m_H mol <> 0 /\ g_H g <> m_H mol) /\ ~ In (g_id g, m) ig.
  (* the state after a run over candidates seen, in order *)
  Definition inv (seen : list (group * list nat)) (st : run_state) : Prop :=
    let '(matched, counts, assigned) := st in
    counts = map (fun kl => (fst kl, List.length (snd kl))) assigned /\
    NoDup matched /\ (forall x, In x matched <-> In x (atoms_of (pairs assigned))) /\ NoDup (atoms_of (pairs assigned)) /\
    (forall k m, In (k, m) (pairs assigned) -> exists g, g_id g = k /\ In (g, m) seen /\ accept g m) /\
    (forall g m, In (g, m) seen -> In (g_id g, m) (pairs assigned) \/ ~ accept g m \/
       exists g' m' s1 s2, seen = s1 ++ s2 /\ In (g', m') s1 /\ (In (g, m) s2) /\ In (g_id g', m') (pairs assigned) /\ overlap m m').
  Lemma inv_step seen st g m : NoDup m -> inv seen st -> inv (seen ++ [(g, m)]) (try_match mol ig g st m).
  Proof.
    destruct st as [[matched counts] assigned]. intros Hm (I1 & I2 & I3 & I4 & I5 & I6).
    assert (Hold : forall a' : matches, (forall p, In p (pairs assigned) -> In p (pairs a')) -> forall h v, In (h, v) seen -> In (g_id h, v) (pairs a') \/ ~ accept h v \/
       exists g' m' s1 s2, seen ++ [(g, m)] = s1 ++ s2 /\ In (g', m') s1 /\ (In (h, v) s2) /\ In (g_id g', m') (pairs a') /\ overlap v m').
    { intros a' Ha h v Hin. destruct (I6 h v Hin) as [H|[H|(g' & m' & s1 & s2 & H1 & H2 & H3 & H4 & H5)]]; [left; auto|right; left; exact H|].
      right; right. exists g', m', s1, (s2 ++ [(g, m)]). rewrite H1, app_assoc, in_app_iff. intuition. }
    assert (Hsame : (In (g_id g, m) (pairs assigned) \/ ~ accept g m \/ exists g' m', In (g', m') seen /\ In (g_id g', m') (pairs assigned) /\ overlap m m') -> inv (seen ++ [(g, m)]) (matched, counts, assigned)).
    { intros H. split; [exact I1|]. split; [exact I2|]. split; [exact I3|]. split; [exact I4|]. split.
      - intros k v Hk. destruct (I5 k v Hk) as (h & H1 & H2 & H3). exists h. rewrite in_app_iff. auto.
      - intros h v Hin. apply in_app_iff in Hin. destruct Hin as [Hin|[E|[]]]; [apply Hold; auto|]. injection E. intros -> ->.
        destruct H as [H|[H|(g' & m' & H1 & H2 & H3)]]; [auto|auto|]. right; right. exists g', m', seen, [(h, v)]. cbn. intuition. }
    unfold try_match. destruct (meets m matched) eqn:Em.
    - apply Hsame. right; right. apply meets_spec in Em. destruct Em as [x [H1 H2]]. apply I3 in H2. unfold atoms_of in H2. apply in_concat in H2.
      destruct H2 as (v & H2 & H3). apply in_map_iff in H2. destruct H2 as ([k v'] & E & H2). cbn in E. subst v'. destruct (I5 k v H2) as (h & H4 & H5 & _).
      exists h, v. subst k. split; [exact H5|]. split; [exact H2|]. exists x; auto.
    - destruct (set_eq m (m_atoms mol) && negb (m_H mol =? 0) && negb (g_H g =? m_H mol)) eqn:Ew.
      + apply Hsame. right; left. intros [H _]. apply H. apply andb_true_iff in Ew. destruct Ew as [Ew E3]. apply andb_true_iff in Ew. destruct Ew as [E1 E2].
        split; [apply set_eq_spec, E1|]. split; [intros E; rewrite E in E2; discriminate|intros E; rewrite E, Nat.eqb_refl in E3; discriminate].
      + destruct (ignored (g_id g) m ig) eqn:Ei; [apply Hsame; right; left; intros [_ H]; apply H, ignored_spec, Ei|].
        assert (Hacc : accept g m).
        { split; [|intros H; apply ignored_spec in H; congruence]. intros (H1 & H2 & H3). rewrite (proj2 (set_eq_spec _ _) H1) in Ew.
          apply Nat.eqb_neq in H2. apply Nat.eqb_neq in H3. rewrite H2, H3 in Ew. discriminate. }
        set (a' := dset (g_id g) _ assigned). pose proof (pairs_dset (g_id g) m assigned) as P. fold a' in P.
        assert (Pa := atoms_perm _ _ P). unfold atoms_of in Pa at 2. cbn [map List.concat snd] in Pa. fold (atoms_of (pairs assigned)) in Pa.
        destruct (union_spec m matched) as [U1 U2].
        assert (Hdis : forall x, In x m -> ~ In x (atoms_of (pairs assigned))).
        { intros x H1 H2. apply I3 in H2. assert (T : overlap m matched) by (exists x; auto). apply meets_spec in T. congruence. }
        split; [subst counts; apply counts_dset|]. split; [apply U2, I2|]. split.
        { intros x. rewrite U1. rewrite I3. split; intros H.
          - apply (Permutation_in _ (Permutation_sym Pa)). apply in_app_iff. tauto.
          - apply (Permutation_in _ Pa) in H. apply in_app_iff in H. tauto. }
        split. { apply (Permutation_NoDup (Permutation_sym Pa)). clear - Hm I4 Hdis. induction m as [|x m IH]; [exact I4|].
          inversion Hm; subst. cbn. constructor; [|apply IH; [assumption|intros y Hy; apply Hdis; right; exact Hy]].
          rewrite in_app_iff. intros [H|H]; [contradiction|]. exact (Hdis x (or_introl eq_refl) H). }
        split.
        { intros k v H. apply (Permutation_in _ P) in H. destruct H as [E|H]; [injection E; intros <- <-; exists g; rewrite in_app_iff; cbn; auto|].
          destruct (I5 k v H) as (h & H1 & H2 & H3). exists h. rewrite in_app_iff. auto. }
        intros h v Hin. apply in_app_iff in Hin. destruct Hin as [Hin|[E|[]]].
        { apply Hold; [|exact Hin]. intros p Hp. apply (Permutation_in _ (Permutation_sym P)). right; exact Hp. }
        injection E. intros <- <-. left. apply (Permutation_in _ (Permutation_sym P)). left; reflexivity.
  Qed.
  Lemma inv_group g l : (forall m, In m l -> NoDup m) -> forall seen st, inv seen st -> inv (seen ++ map (fun m => (g, m)) l) (fold_left (try_match mol ig g) l st).
  Proof.
    induction l as [|m l IH]; intros Hl seen st H; cbn; [rewrite app_nil_r; exact H|].
    replace (seen ++ (g, m) :: map (fun m => (g, m)) l) with ((seen ++ [(g, m)]) ++ map (fun m => (g, m)) l) by (rewrite <- app_assoc; reflexivity).
    apply IH; [intros; apply Hl; right; assumption|]. apply inv_step; [apply Hl; left; reflexivity|exact H].
  Qed.
  Definition candidates (all : matches) (cat : list group) : list (group * list nat) :=
    flat_map (fun g => match dget (g_id g) all with Some l => map (fun m => (g, m)) l | None => [] end) cat.
  Lemma inv_run all cat : (forall k l m, dget k all = Some l -> In m l -> NoDup m) -> inv (candidates all cat) (run_match mol cat all ig).
  Proof.
    intros Hall. unfold run_match. assert (H0 : inv [] ([], [], [])).
    { cbn. repeat split; try (constructor); intros; try contradiction; tauto. }
    assert (G : forall cat seen st, inv seen st -> inv (seen ++ candidates all cat) (fold_left (fun st g => match dget (g_id g) all with None => st | Some l => fold_left (try_match mol ig g) l st end) cat st)).
    { clear cat. induction cat as [|g cat IH]; intros seen st H; [unfold candidates; cbn [flat_map fold_left]; rewrite app_nil_r; exact H|]. unfold candidates. cbn [flat_map fold_left]. fold (candidates all cat). rewrite app_assoc. apply IH.
      destruct (dget (g_id g) all) as [l|] eqn:E.
      { apply inv_group; [intros m Hm; eapply Hall; eassumption|exact H]. }
      rewrite app_nil_r; exact H. }
    exact (G cat [] _ H0).
  Qed.
End Run.

(* --- the matches of the catalog --- *)
Lemma collect_early mol cat : forall found k, collect mol cat found = inl k -> exists g, In g cat /\ g_id g = k /\ g_hits g = [] /\ m_all mol = m_H mol /\ m_H mol = g_H g.
Proof.
  induction cat as [|g cat IH]; intros found k H; cbn in H; [discriminate|].
  assert (Hrest : forall f, collect mol cat f = inl k -> exists g0, In g0 (g :: cat) /\ g_id g0 = k /\ g_hits g0 = [] /\ m_all mol = m_H mol /\ m_H mol = g_H g0)
    by (intros f Hf; destruct (IH f k Hf) as (h & H1 & H2); exists h; split; [right; exact H1|exact H2]).
  destruct (g_hits g) as [|m l] eqn:Eh.
  - destruct (negb (g_several g) && g_only_H g); [|apply (Hrest _ H)]. destruct (g_hits_H g); [apply (Hrest _ H)|].
    destruct (Nat.eqb_spec (m_all mol) (m_H mol)) as [E1|E1]; [|apply (Hrest _ H)]. destruct (Nat.eqb_spec (m_H mol) (g_H g)) as [E2|E2]; [|apply (Hrest _ H)].
    cbn in H. injection H. intros <-. exists g. cbn. auto.
  - rewrite andb_false_r in H. apply (Hrest _ H).
Qed.
Lemma collect_all mol cat : (forall g, In g cat -> ordinary mol g) -> forall found all, collect mol cat found = inr all -> NoDup (map g_id cat) -> (forall g, In g cat -> dget (g_id g) found = None) ->
  forall k l, dget k all = Some l <-> dget k found = Some l \/ exists g, In g cat /\ g_id g = k /\ g_hits g = l /\ l <> [].
Proof.
  induction cat as [|g cat IH]; intros Ho found all H Hn Hf k l; cbn in H.
  - injection H. intros <-. split; [auto|intros [E|(g & [] & _)]; exact E].
  - inversion Hn as [|? ? Hn1 Hn2]; subst.
    assert (Hskip : g_hits g = [] -> collect mol cat found = inr all -> dget k all = Some l <-> dget k found = Some l \/ exists g0, In g0 (g :: cat) /\ g_id g0 = k /\ g_hits g0 = l /\ l <> []).
    { intros E Hc. rewrite (IH (fun q Hq => Ho q (or_intror Hq)) found all Hc Hn2 (fun q Hq => Hf q (or_intror Hq)) k l).
      split; intros [H0|(h & H1 & H2)]; auto; right; [exists h; split; [right; exact H1|exact H2]|].
      destruct H1 as [<- | H1]; [destruct H2 as (_ & H2 & H3); congruence|exists h; auto]. }
    destruct (g_hits g) as [|m v] eqn:Eh.
    + destruct (negb (g_several g) && g_only_H g); [|apply Hskip; auto].
      destruct (Ho g (or_introl eq_refl)) as [_ O]. specialize (O Eh).
      destruct (g_hits_H g) as [|h r]; [apply Hskip; auto|]. destruct O as [O|[O1 O2]]; [discriminate|].
      rewrite O1, O2, !Nat.eqb_refl in H. discriminate.
    + rewrite andb_false_r in H. rewrite (IH (fun q Hq => Ho q (or_intror Hq)) _ all H Hn2) by
        (intros q Hq; rewrite dget_dset; destruct (Nat.eqb_spec (g_id g) (g_id q)) as [E|E]; [exfalso; apply Hn1; rewrite E; apply in_map, Hq|apply Hf; right; exact Hq]).
      rewrite dget_dset. destruct (Nat.eqb_spec (g_id g) k) as [<-|Hk].
      * rewrite (Hf g (or_introl eq_refl)). split.
        -- intros [E|(h & H1 & H2 & _)]; [injection E; intros <-; right; exists g; cbn; intuition; discriminate|exfalso; apply Hn1; rewrite <- H2; apply in_map, H1].
        -- intros [E|(h & [<- | H1] & H2 & H3 & H4)]; [discriminate|left; congruence|exfalso; apply Hn1; rewrite <- H2; apply in_map, H1].
      * split; intros [E|(h & H1 & H2 & H3)]; auto; right; [exists h; split; [right; exact H1|auto]|].
        destruct H1 as [<- | H1]; [contradiction|exists h; auto].
Qed.
Lemma same_id (cat : list group) g h : NoDup (map g_id cat) -> In g cat -> In h cat -> g_id g = g_id h -> g = h.
Proof.
  induction cat as [|x cat IH]; intros Hn Hg Hh E; [destruct Hg|]. inversion Hn; subst.
  destruct Hg as [-> | Hg], Hh as [-> | Hh]; auto.
  - exfalso. apply H1. rewrite E. apply in_map, Hh.
  - exfalso. apply H1. rewrite <- E. apply in_map, Hg.
Qed.
Lemma object_of_spec cat g : NoDup (map g_id cat) -> In g cat -> object_of cat (g_id g) = Some g.
Proof.
  intros Hn Hg. unfold object_of. destruct (find _ _) as [h|] eqn:E.
  - apply find_some in E. destruct E as [E1 E2]. apply Nat.eqb_eq in E2. apply in_rev in E1. f_equal. eapply same_id; eauto.
  - exfalso. assert (H := find_none _ _ E g). cbn in H. rewrite Nat.eqb_refl in H. apply in_rev in Hg. specialize (H Hg). discriminate.
Qed.
Lemma insert_perm x l : Permutation (insert_sorted x l) (x :: l).
Proof. induction l as [|y l IH]; cbn; [reflexivity|]. destruct (before x y); [reflexivity|]. rewrite IH. apply perm_swap. Qed.
Lemma sort_perm l : Permutation (sort_keys l) l.
Proof. induction l as [|x l IH]; cbn; [reflexivity|]. rewrite insert_perm. constructor. exact IH. Qed.
Lemma insert_sortedness x l : StronglySorted (fun a b => (fst b <= fst a)%Z) l -> StronglySorted (fun a b => (fst b <= fst a)%Z) (insert_sorted x l).
Proof.
  induction l as [|y l IH]; intros H; cbn; [repeat constructor|]. inversion H as [|? ? H1 H2]; subst. destruct (before x y) eqn:E.
  - assert (Hxy : (fst y <= fst x)%Z).
    { unfold before in E. apply orb_true_iff in E. destruct E as [E|E]; [apply Z.ltb_lt in E; lia|]. apply andb_true_iff in E. destruct E as [E _]. apply Z.eqb_eq in E. lia. }
    constructor; [exact H|]. constructor; [exact Hxy|]. eapply Forall_impl; [|exact H2]. cbn. intros; lia.
  - constructor; [apply IH, H1|]. assert (Hyx : (fst x <= fst y)%Z).
    { unfold before in E. apply orb_false_iff in E. destruct E as [E _]. apply Z.ltb_ge in E. exact E. }
    apply (Permutation_Forall (Permutation_sym (insert_perm x l))). constructor; assumption.
Qed.
Lemma sort_sortedness l : StronglySorted (fun a b => (fst b <= fst a)%Z) (sort_keys l).
Proof. induction l; cbn; [constructor|]. apply insert_sortedness. assumption. Qed.
Lemma ssorted_app {A} (P : A -> A -> Prop) l1 l2 : StronglySorted P (l1 ++ l2) -> forall x y, In x l1 -> In y l2 -> P x y.
Proof.
  induction l1 as [|a l1 IH]; intros H x y Hx Hy; [destruct Hx|]. inversion H as [|? ? H1 H2]; subst. destruct Hx as [-> | Hx]; [|eapply IH; eauto].
  rewrite Forall_forall in H2. apply H2, in_app_iff. auto.
Qed.
Lemma ssorted_join {A} (P : A -> A -> Prop) l1 l2 : StronglySorted P l1 -> StronglySorted P l2 -> (forall x y, In x l1 -> In y l2 -> P x y) -> StronglySorted P (l1 ++ l2).
Proof.
  induction l1 as [|a l1 IH]; intros H1 H2 H; [exact H2|]. inversion H1; subst. cbn. constructor; [apply IH; auto; intros; apply H; [right|]; assumption|].
  apply Forall_app. split; [assumption|]. apply Forall_forall. intros y Hy. apply H; [left; reflexivity|exact Hy].
Qed.
Section Catalog.
  Variables (mol : molecule) (cat : list group).
  Hypothesis ids : NoDup (map g_id cat).
  Let srt := by_priority cat.
  Lemma by_priority_In g : In g srt <-> In g cat.
  Proof.
    unfold srt, by_priority. rewrite in_flat_map. split.
    - intros ([p k] & H1 & H2). apply (Permutation_in _ (sort_perm _)) in H1. apply in_map_iff in H1. destruct H1 as (h & E & H1). injection E. intros <- _. cbn in H2.
      rewrite (object_of_spec _ _ ids H1) in H2. destruct H2 as [<-|[]]. exact H1.
    - intros H. exists (prio g, g_id g). split; [apply (Permutation_in _ (Permutation_sym (sort_perm _))), in_map_iff; exists g; auto|]. cbn. rewrite (object_of_spec _ _ ids H). left; reflexivity.
  Qed.
  Lemma by_priority_sorted : StronglySorted (fun a b => (priority_of b <= priority_of a)%Z) srt.
  Proof.
    unfold srt, by_priority. pose proof (sort_sortedness (map (fun g => (prio g, g_id g)) cat)) as S.
    assert (Hk : forall pk, In pk (sort_keys (map (fun g => (prio g, g_id g)) cat)) -> exists g, object_of cat (snd pk) = Some g /\ priority_of g = fst pk).
    { intros pk H. apply (Permutation_in _ (sort_perm _)) in H. apply in_map_iff in H. destruct H as (g & <- & H). exists g. cbn. split; [apply object_of_spec; assumption|reflexivity]. }
    induction S as [|[p k] l S IH F]; cbn; [constructor|]. destruct (Hk _ (or_introl eq_refl)) as (g & E1 & E2). cbn in E1, E2. rewrite E1. cbn.
    constructor; [apply IH; intros pk H; apply Hk; right; exact H|]. apply Forall_forall. intros h Hh. apply in_flat_map in Hh. destruct Hh as (pk & H1 & H2).
    destruct (Hk pk (or_intror H1)) as (g' & E3 & E4). rewrite E3 in H2. destruct H2 as [<-|[]]. rewrite Forall_forall in F. specialize (F _ H1). cbn in F. lia.
  Qed.
  Variable all : list (nat * list (list nat)).
  Hypothesis all_spec : forall k l, dget k all = Some l <-> exists g, In g cat /\ g_id g = k /\ g_hits g = l /\ l <> [].
  Lemma candidates_In g m : In (g, m) (candidates all srt) <-> In g cat /\ In m (g_hits g).
  Proof.
    unfold candidates. rewrite in_flat_map. split.
    - intros (h & H1 & H2). apply by_priority_In in H1. destruct (dget (g_id h) all) as [l|] eqn:E; [|destruct H2]. apply in_map_iff in H2. destruct H2 as (v & E2 & H2).
      injection E2. intros -> ->. apply all_spec in E. destruct E as (q & H3 & H4 & H5 & _). assert (q = g) by (eapply same_id; eauto). subst. auto.
    - intros [H1 H2]. exists g. split; [apply by_priority_In, H1|]. assert (E : dget (g_id g) all = Some (g_hits g)) by (apply all_spec; exists g; repeat split; auto; intros E; rewrite E in H2; destruct H2).
      rewrite E. apply in_map, H2.
  Qed.
  Lemma candidates_sorted : StronglySorted (fun a b => (priority_of (fst b) <= priority_of (fst a))%Z) (candidates all srt).
  Proof.
    unfold candidates. pose proof by_priority_sorted as S. induction S as [|g l S IH F]; [constructor|]. cbn [flat_map]. apply ssorted_join; [|exact IH|].
    - destruct (dget (g_id g) all) as [v|]; [|constructor]. induction v; cbn; [constructor|]. constructor; [assumption|]. apply Forall_forall. intros x Hx. apply in_map_iff in Hx. destruct Hx as (m & <- & _). cbn. lia.
    - intros x y Hx Hy. destruct (dget (g_id g) all) as [v|]; [|destruct Hx]. apply in_map_iff in Hx. destruct Hx as (m & <- & _).
      apply in_flat_map in Hy. destruct Hy as (h & Hh & Hy). destruct (dget (g_id h) all) as [w|]; [|destruct Hy]. apply in_map_iff in Hy. destruct Hy as (m' & <- & _).
      rewrite Forall_forall in F. apply (F _ Hh).
  Qed.
End Catalog.

(* --- the search --- *)
Lemma combs_length {A} n : forall (l : list A) c, In c (combs n l) -> List.length c = n.
Proof.
  induction n as [|n IH]; intros l c H; [destruct l; destruct H as [<-|[]]; reflexivity|]. induction l as [|x l IHl]; [destruct H|].
  cbn in H. apply in_app_iff in H. destruct H as [H|H]; [|apply IHl, H]. apply in_map_iff in H. destruct H as (c' & <- & H). cbn. f_equal. eapply IH, H.
Qed.
Lemma combs_incl {A} n : forall (l : list A) c, In c (combs n l) -> incl c l.
Proof.
  induction n as [|n IH]; intros l c H; [destruct l; destruct H as [<-|[]]; intros ? []|]. induction l as [|x l IHl]; [destruct H|].
  cbn in H. apply in_app_iff in H. destruct H as [H|H]; [|intros y Hy; right; apply (IHl H), Hy]. apply in_map_iff in H. destruct H as (c' & <- & H).
  intros y [-> | Hy]; [left; reflexivity|right; apply (IH _ _ H), Hy].
Qed.
Lemma try_combs_spec mol catalog cat all mx cs : forall st tries st' tries' done, try_combs mol catalog cat all mx cs st tries = (st', tries', done) ->
  (done = true -> complete mol catalog st' = true) /\ (st' = st \/ exists ig, In ig cs /\ st' = run_match mol cat all ig).
Proof.
  induction cs as [|ig cs IH]; intros st tries st' tries' done H; cbn [try_combs] in H; [injection H; intros; subst; split; [discriminate|auto]|].
  destruct (mx <? S tries); [injection H; intros; subst; split; [discriminate|auto]|]. cbv zeta in H.
  destruct (complete mol catalog (run_match mol cat all ig)) eqn:E.
  - injection H. intros; subst. split; [auto|]. right. exists ig. cbn. auto.
  - apply IH in H. destruct H as [H1 [-> |(c & H2 & H3)]]; split; auto; right; [exists ig|exists c]; cbn; auto.
Qed.
Lemma try_removals_spec mol catalog cat all mx things sizes : forall st tries st' done, try_removals mol catalog cat all mx things sizes st tries = (st', done) ->
  (done = true -> complete mol catalog st' = true) /\ (st' = st \/ exists r ig, In r sizes /\ In ig (combs r things) /\ st' = run_match mol cat all ig).
Proof.
  induction sizes as [|r sizes IH]; intros st tries st' done H; cbn [try_removals] in H; [injection H; intros; subst; split; [discriminate|auto]|].
  destruct (try_combs mol catalog cat all mx (combs r things) st tries) as [[st1 tries1] d] eqn:E. apply try_combs_spec in E. destruct E as [E1 E2].
  destruct d.
  - injection H. intros; subst. split; [intros; auto|]. destruct E2 as [-> |(ig & H1 & H2)]; [auto|]. right. exists r, ig. cbn. auto.
  - apply IH in H. destruct H as [H1 H2]. split; [exact H1|]. destruct H2 as [-> |(q & ig & H2 & H3 & H4)].
    + destruct E2 as [-> |(ig & H2 & H3)]; [auto|]. right. exists r, ig. cbn. auto.
    + right. exists q, ig. cbn. auto.
Qed.

Lemma collect_keys mol cat : forall f all, NoDup (map fst f) -> collect mol cat f = inr all -> NoDup (map fst all).
Proof.
  induction cat as [|g cat IH]; intros f all Hf H; cbn in H; [injection H; intros <-; exact Hf|].
  destruct (g_hits g) as [|x y]; [destruct (negb _ && _); [destruct (g_hits_H g); [|destruct (_ && _); [discriminate|]]|]|rewrite andb_false_r in H]; eapply IH; try exact H; try exact Hf; apply keys_dset, Hf.
Qed.
Lemma In_dget {A} k (l : A) d : NoDup (map fst d) -> In (k, l) d -> dget k d = Some l.
Proof.
  induction d as [|[r w] d IH]; intros Hd H4; [destruct H4|]. cbn in *. inversion Hd; subst. destruct H4 as [E|H4]; [injection E; intros -> ->; rewrite Nat.eqb_refl; reflexivity|].
  destruct (Nat.eqb_spec r k) as [->|Hr]; [exfalso; apply H1; change k with (fst (k, l)); apply in_map, H4|apply IH; assumption].
Qed.
Lemma dget_In {A} k (l : A) d : dget k d = Some l -> In (k, l) d.
Proof. induction d as [|[r w] d IH]; intros Hg; [discriminate|]. cbn in Hg. destruct (Nat.eqb_spec r k) as [->|Hr]; [injection Hg; intros ->; left; reflexivity|right; apply IH, Hg]. Qed.
Lemma pair_dec (a b : nat * list nat) : {a = b} + {a <> b}.
Proof. decide equality; [apply (list_eq_dec Nat.eq_dec)|apply Nat.eq_dec]. Qed.

(* --- the answer of smarts_fragment_priority --- *)
Section Answer.
  Variables (mol : molecule) (catalog : list group).
  Hypothesis atoms_once : NoDup (m_atoms mol).
  Hypothesis ids : NoDup (map g_id catalog).
  Hypothesis normal : forall g, In g catalog -> ordinary mol g.
  (* the molecule is hydrogen *)
  Definition is_hydrogen : Prop := exists g, In g catalog /\ g_hits g = [] /\ m_all mol = m_H mol /\ m_H mol = g_H g.
  Let cat := filter (fun g => match g_prio g with Some _ => true | None => false end) catalog.
  Lemma cat_In g : In g cat <-> In g catalog /\ has_priority g.
  Proof. unfold cat, has_priority. rewrite filter_In. destruct (g_prio g); intuition congruence. Qed.
  Lemma cat_ids : NoDup (map g_id cat).
  Proof.
    unfold cat. clear normal. induction catalog as [|g l IH]; cbn; [constructor|]. inversion ids; subst. destruct (g_prio g); [|apply IH; assumption].
    cbn. constructor; [|apply IH; assumption]. intros H. apply H1. apply in_map_iff in H. destruct H as (h & E & H). apply filter_In in H. rewrite <- E. apply in_map, H.
  Qed.
  Lemma cat_normal g : In g cat -> ordinary mol g. Proof. intros H. apply normal, cat_In, H. Qed.
  Lemma all_spec all : collect mol cat [] = inr all -> forall k l, dget k all = Some l <-> exists g, In g cat /\ g_id g = k /\ g_hits g = l /\ l <> [].
  Proof. intros H k l. rewrite (collect_all mol cat cat_normal [] all H cat_ids (fun _ _ => eq_refl)). cbn. split; [intros [E|E]; [discriminate|exact E]|auto]. Qed.
  Lemma all_nodup all : collect mol cat [] = inr all -> forall k l m, dget k all = Some l -> In m l -> NoDup m.
  Proof. intros H k l m E Hm. apply (all_spec _ H) in E. destruct E as (g & H1 & _ & <- & _). destruct (cat_normal _ H1) as [N _]. apply N, Hm. Qed.

  Lemma way counts assigned matched b : ~ is_hydrogen -> fragment_priority (Some mol) catalog = Five counts assigned matched b ->
    exists all ig, collect mol cat [] = inr all /\ run_match mol (by_priority cat) all ig = (matched, counts, assigned) /\ List.length ig <= 4 /\
      (forall k m, In (k, m) ig -> exists g, In g cat /\ g_id g = k /\ In m (g_hits g)) /\
      (b = true -> complete mol cat (matched, counts, assigned) = true).
  Proof.
    intros Hh H. unfold fragment_priority in H. fold cat in H. destruct (collect mol cat []) as [k|all] eqn:Ec.
    { exfalso. apply Hh. destruct (collect_early _ _ _ _ Ec) as (g & H1 & H2 & H3). exists g. split; [apply cat_In, H1|exact H3]. }
    exists all. cbv zeta in H. destruct (run_match mol (by_priority cat) all []) as [[m0 c0] a0] eqn:Er.
    destruct (negb _).
    { injection H. intros <- <- <- <-. exists []. rewrite Er. split; [reflexivity|]. split; [reflexivity|]. split; [cbn; lia|]. split; [intros ? ? []|discriminate]. }
    destruct (complete mol cat (m0, c0, a0)) eqn:Ecm.
    { injection H. intros <- <- <- <-. exists []. rewrite Er. split; [reflexivity|]. split; [reflexivity|]. split; [cbn; lia|]. split; [intros ? ? []|intros _; exact Ecm]. }
    destruct (try_removals _ _ _ _ _ _ _ _ _) as [[[m1 c1] a1] d] eqn:Et. apply try_removals_spec in Et. destruct Et as [E1 E2]. injection H. intros <- <- <- <-.
    destruct E2 as [E2|(r & ig & H1 & H2 & H3)].
    - exists []. rewrite Er. split; [reflexivity|]. split; [congruence|]. split; [cbn; lia|]. split; [intros ? ? []|exact E1].
    - exists ig. split; [reflexivity|]. split; [congruence|]. split; [rewrite (combs_length _ _ _ H2); cbn in H1; intuition lia|]. split; [|exact E1].
      intros k m Hk. apply (combs_incl _ _ _ H2) in Hk. apply in_flat_map in Hk. destruct Hk as ([q l] & H4 & H5). cbn in H5. apply in_map_iff in H5. destruct H5 as (v & E & H5). injection E. intros -> ->.
      assert (Hd : NoDup (map fst all)) by (eapply collect_keys; [|exact Ec]; constructor).
      assert (Hg : dget k all = Some l) by (apply In_dget; assumption).
      apply (all_spec _ Ec) in Hg. destruct Hg as (g & G1 & G2 & G3 & _). exists g. subst. auto.
  Qed.

  (* whatever the answer: the groups counted are those assigned, each is a match of its group, and no atom is in two of them *)
  Theorem C65_assigned counts assigned matched b : ~ is_hydrogen -> fragment_priority (Some mol) catalog = Five counts assigned matched b ->
    counts = map (fun kl => (fst kl, List.length (snd kl))) assigned /\
    (forall k m, In (k, m) (pairs assigned) -> exists g, In g catalog /\ has_priority g /\ g_id g = k /\ In m (g_hits g)) /\
    NoDup (atoms_of (pairs assigned)) /\ Permutation matched (atoms_of (pairs assigned)).
  Proof.
    intros Hh H. destruct (way _ _ _ _ Hh H) as (all & ig & Ec & Er & _ & _ & _).
    pose proof (inv_run mol ig all (by_priority cat) (all_nodup _ Ec)) as I. rewrite Er in I. destruct I as (I1 & I2 & I3 & I4 & I5 & _).
    split; [exact I1|]. split.
    - intros k m Hk. destruct (I5 k m Hk) as (g & E & Hg & _). apply (candidates_In _ cat_ids all (all_spec _ Ec)) in Hg. destruct Hg as [G1 G2]. apply cat_In in G1. exists g. tauto.
    - split; [exact I4|]. apply NoDup_Permutation; assumption.
  Qed.
  Lemma hydrogens_sum (gs : list group) : forall ps : list (nat * list nat), Forall2 (fun g km => In g cat /\ g_id g = fst km) gs ps ->
    sum (map (fun km => match object_of cat (fst km) with Some g => if g_from_smarts g then sum (map (m_H_at mol) (snd km)) else g_H g | None => 0 end) ps) =
    list_sum (map (fun p => hydrogens_of mol (fst p) (snd p)) (combine gs (map snd ps))).
  Proof.
    induction gs as [|g gs IH]; intros ps H; inversion H as [|? km ? ps' [H1 H2] H3]; subst; [reflexivity|]. cbn [map combine sum list_sum fold_right fst snd].
    rewrite <- H2, (object_of_spec _ _ cat_ids H1). unfold hydrogens_of at 1. unfold sum in *. cbn [fold_right]. f_equal. apply IH, H3.
  Qed.
  Lemma hydrogens_pairs a : hydrogens mol cat a =
    sum (map (fun km => match object_of cat (fst km) with Some g => if g_from_smarts g then sum (map (m_H_at mol) (snd km)) else g_H g | None => 0 end) (pairs a)).
  Proof.
    unfold hydrogens. f_equal. unfold pairs. induction a as [|[k l] a IH]; [reflexivity|]. cbn [flat_map]. rewrite map_app, IH. f_equal. cbn [fst snd]. rewrite map_map. reflexivity.
  Qed.
  (* success: the groups assigned cover every atom exactly once, and stand for all hydrogens *)
  Theorem C65_success counts assigned matched : ~ is_hydrogen -> fragment_priority (Some mol) catalog = Five counts assigned matched true ->
    Permutation (atoms_of (pairs assigned)) (m_atoms mol) /\ Permutation matched (m_atoms mol) /\
    exists gs, Forall2 (fun g km => In g catalog /\ has_priority g /\ g_id g = fst km /\ In (snd km) (g_hits g)) gs (pairs assigned) /\
      list_sum (map (fun p => hydrogens_of mol (fst p) (snd p)) (combine gs (map snd (pairs assigned)))) = m_H mol.
  Proof.
    intros Hh H. destruct (C65_assigned _ _ _ _ Hh H) as (A1 & A2 & A3 & A4). destruct (way _ _ _ _ Hh H) as (all & ig & Ec & Er & _ & _ & Hc).
    specialize (Hc eq_refl). unfold complete in Hc. apply andb_true_iff in Hc. destruct Hc as [Hc1 Hc2]. apply Nat.eqb_eq in Hc1. apply Nat.eqb_eq in Hc2.
    assert (P : Permutation (atoms_of (pairs assigned)) (m_atoms mol)).
    { apply NoDup_Permutation_bis; [exact A3|rewrite <- (Permutation_length A4); lia|].
      intros x Hx. unfold atoms_of in Hx. apply in_concat in Hx. destruct Hx as (m & H1 & H2). apply in_map_iff in H1. destruct H1 as ([k v] & E & H1). cbn in E. subst v.
      destruct (A2 _ _ H1) as (g & G1 & _ & _ & G2). destruct (normal _ G1) as [N _]. apply (proj2 (proj2 (N _ G2))), H2. }
    split; [exact P|]. split; [etransitivity; eassumption|].
    assert (G : exists gs, Forall2 (fun g km => In g catalog /\ has_priority g /\ g_id g = fst km /\ In (snd km) (g_hits g)) gs (pairs assigned)).
    { clear - A2. induction (pairs assigned) as [|[k m] l IH]; [exists []; constructor|]. destruct IH as [gs Hgs]; [intros; apply A2; right; assumption|].
      destruct (A2 k m (or_introl eq_refl)) as (g & Hg). exists (g :: gs). constructor; [exact Hg|exact Hgs]. }
    destruct G as [gs Hgs]. exists gs. split; [exact Hgs|]. rewrite <- Hc2, hydrogens_pairs. symmetry. apply hydrogens_sum.
    clear - Hgs. induction Hgs as [|g km gs ps (G1 & G2 & G3 & _) F IH]; constructor; [split; [apply cat_In; auto|exact G3]|exact IH].
  Qed.
  (* what was left out: at most four matches were set aside; any other match of a group overlaps an assigned one of a group with at least its
     priority, or covers the whole molecule with another number of hydrogens *)
  Theorem C65_left_out counts assigned matched b : ~ is_hydrogen -> fragment_priority (Some mol) catalog = Five counts assigned matched b ->
    exists aside, List.length aside <= 4 /\ (forall k m, In (k, m) aside -> ~ In (k, m) (pairs assigned)) /\
      forall g m, In g catalog -> has_priority g -> In m (g_hits g) ->
        In (g_id g, m) (pairs assigned) \/ In (g_id g, m) aside \/
        ((forall x, In x m <-> In x (m_atoms mol)) /\ m_H mol <> 0 /\ g_H g <> m_H mol) \/
        exists g' m', In g' catalog /\ In (g_id g', m') (pairs assigned) /\ (priority_of g <= priority_of g')%Z /\ overlap m m'.
  Proof.
    intros Hh H. destruct (way _ _ _ _ Hh H) as (all & ig & Ec & Er & Hlen & Hig & _). exists ig. split; [exact Hlen|].
    pose proof (inv_run mol ig all (by_priority cat) (all_nodup _ Ec)) as I. rewrite Er in I. destruct I as (_ & _ & _ & _ & I5 & I6). split.
    - intros k m H1 H2. destruct (I5 _ _ H2) as (g & <- & _ & _ & H3). contradiction.
    - intros g m Hg Hp Hm. assert (Hs : In (g, m) (candidates all (by_priority cat))) by (apply (candidates_In _ cat_ids all (all_spec _ Ec)); split; [apply cat_In; auto|exact Hm]).
      destruct (I6 g m Hs) as [H1|[H1|(g' & m' & s1 & s2 & E & H1 & H2 & H3 & H4)]].
      + left; exact H1.
      + right. destruct (in_dec pair_dec (g_id g, m) ig) as [Hi|Hi]; [left; exact Hi|]. right; left.
        destruct (set_eq m (m_atoms mol)) eqn:E1; [|exfalso; apply H1; split; [intros (K & _); apply set_eq_spec in K; congruence|exact Hi]].
        split; [apply set_eq_spec, E1|]. destruct (Nat.eq_dec (m_H mol) 0) as [E2|E2]; [exfalso; apply H1; split; [tauto|exact Hi]|]. split; [exact E2|].
        destruct (Nat.eq_dec (g_H g) (m_H mol)) as [E3|E3]; [exfalso; apply H1; split; [tauto|exact Hi]|exact E3].
      + right; right; right. exists g', m'. assert (Hg' : In (g', m') (candidates all (by_priority cat))) by (rewrite E; apply in_app_iff; auto).
        apply (candidates_In _ cat_ids all (all_spec _ Ec)) in Hg'. destruct Hg' as [Hg' _]. split; [apply cat_In, Hg'|]. split; [exact H3|]. split; [|exact H4].
        pose proof (candidates_sorted _ cat_ids all) as S. rewrite E in S. apply (ssorted_app _ _ _ S _ _ H1 H2).
  Qed.
  (* if no two matches overlap and together they cover the molecule and its hydrogens, all of them are assigned *)
  Theorem C65_no_overlap : ~ is_hydrogen ->
    let hits := flat_map (fun g => map (fun m => (g, m)) (g_hits g)) (filter (fun g => match g_prio g with Some _ => true | None => false end) catalog) in
    Permutation (List.concat (map snd hits)) (m_atoms mol) ->
    list_sum (map (fun p => hydrogens_of mol (fst p) (snd p)) hits) = m_H mol ->
    (forall g m, In (g, m) hits -> (forall x, In x m <-> In x (m_atoms mol)) -> m_H mol = 0 \/ g_H g = m_H mol) ->
    exists counts assigned matched, fragment_priority (Some mol) catalog = Five counts assigned matched true /\
      Permutation (pairs assigned) (map (fun p => (g_id (fst p), snd p)) hits).
  Proof.
    intros Hh hits Hcov Hhyd Hwhole. fold cat in hits. assert (Hhits : forall g m, In (g, m) hits <-> In g cat /\ In m (g_hits g)).
    { intros g m. unfold hits. rewrite in_flat_map. split; [intros (h & H1 & H2); apply in_map_iff in H2; destruct H2 as (v & E & H2); injection E; intros -> ->; auto|].
      intros [H1 H2]. exists g. split; [exact H1|]. apply in_map, H2. }
    assert (Hnd : NoDup (List.concat (map snd hits))) by (apply (Permutation_NoDup (Permutation_sym Hcov)), atoms_once).
    destruct (collect mol cat []) as [k|all] eqn:Ec.
    { exfalso. apply Hh. destruct (collect_early _ _ _ _ Ec) as (g & H1 & H2 & H3). exists g. split; [apply cat_In, H1|exact H3]. }
    pose proof (inv_run mol [] all (by_priority cat) (all_nodup _ Ec)) as I. destruct (run_match mol (by_priority cat) all []) as [[matched counts] assigned] eqn:Er.
    destruct I as (I1 & I2 & I3 & I4 & I5 & I6).
    (* a match shares atoms only with itself *)
    assert (Honce : forall g m h v, In (g, m) hits -> In (h, v) hits -> overlap m v -> (g, m) = (h, v)).
    { clear - Hnd. induction hits as [|[q w] l IH]; intros g m h v H1 H2 [x [X1 X2]]; [destruct H1|]. cbn in Hnd.
      assert (Hl : NoDup (List.concat (map snd l))) by (clear - Hnd; induction w; cbn in Hnd; [exact Hnd|inversion Hnd; auto]).
      assert (Hd : forall y, In y w -> ~ In y (List.concat (map snd l))).
      { clear - Hnd. induction w as [|a w IH]; intros y Hy; [destruct Hy|]. cbn in Hnd. inversion Hnd as [|? ? N1 N2]; subst. destruct Hy as [-> | Hy]; [intros K; apply N1, in_app_iff; auto|apply IH; assumption]. }
      assert (Hin : forall a b, In (a, b) l -> forall y, In y b -> In y (List.concat (map snd l))) by (intros a b Hab y Hy; apply in_concat; exists b; split; [change b with (snd (a, b)); apply in_map, Hab|exact Hy]).
      destruct H1 as [E1|H1], H2 as [E2|H2].
      - congruence.
      - exfalso. injection E1. intros <- <-. apply (Hd x X1). eapply Hin; eassumption.
      - exfalso. injection E2. intros <- <-. apply (Hd x X2). eapply Hin; eassumption.
      - eapply IH; eauto. exists x; auto. }
    assert (Hcand : forall g m, In (g, m) (candidates all (by_priority cat)) <-> In (g, m) hits).
    { intros g m. rewrite Hhits. apply (candidates_In _ cat_ids all (all_spec _ Ec)). }
    assert (Hall : forall g m, In (g, m) hits -> In (g_id g, m) (pairs assigned)).
    { intros g m Hgm. destruct (I6 g m (proj2 (Hcand g m) Hgm)) as [H1|[H1|(g' & m' & s1 & s2 & E & H1 & H2 & H3 & H4)]]; [exact H1| |].
      - exfalso. apply H1. split; [|intros []]. intros (K1 & K2 & K3). destruct (Hwhole g m Hgm K1); contradiction.
      - assert (Hg' : In (g', m') hits) by (apply Hcand; rewrite E; apply in_app_iff; auto). assert (E2 := Honce _ _ _ _ Hgm Hg' H4). injection E2. intros -> ->. exact H3. }
    assert (Hback : forall k m, In (k, m) (pairs assigned) -> exists g, g_id g = k /\ In (g, m) hits).
    { intros k m Hk. destruct (I5 k m Hk) as (g & E & Hg & _). exists g. split; [exact E|apply Hcand, Hg]. }
    assert (Hne : forall g m, In (g, m) hits -> m <> []) by (intros g m H; apply Hhits in H; destruct H as [H1 H2]; destruct (cat_normal _ H1) as [N _]; apply N, H2).
    assert (Hperm : Permutation (pairs assigned) (map (fun p => (g_id (fst p), snd p)) hits)).
    { apply NoDup_Permutation.
      - clear - I4 Hback Hne. assert (Hn : forall k m, In (k, m) (pairs assigned) -> m <> []) by (intros k m H; destruct (Hback k m H) as (g & _ & Hg); eapply Hne, Hg).
        clear Hback Hne. induction (pairs assigned) as [|[k m] l IH]; constructor.
        + intros H. assert (Hm := Hn k m (or_introl eq_refl)). destruct m as [|x m]; [contradiction|]. cbn in I4. inversion I4 as [|? ? N1 N2]. apply N1. apply in_app_iff. right.
          apply in_concat. exists (x :: m). split; [change (x :: m) with (snd (k, x :: m)); apply in_map, H|left; reflexivity].
        + apply IH; [clear - I4; unfold atoms_of in *; cbn in I4; induction m; cbn in I4; [exact I4|inversion I4; auto]|intros; apply (Hn k0); right; assumption].
      - assert (Hnh : NoDup hits).
        { clear - Hnd Hne. induction hits as [|[g m] l IH]; constructor.
          - intros H. assert (Hm := Hne g m (or_introl eq_refl)). destruct m as [|x m]; [contradiction|]. cbn in Hnd. inversion Hnd as [|? ? N1 N2]. apply N1. apply in_app_iff. right.
            apply in_concat. exists (x :: m). split; [change (x :: m) with (snd (g, x :: m)); apply in_map, H|left; reflexivity].
          - apply IH; [clear - Hnd; cbn in Hnd; induction m; cbn in Hnd; [exact Hnd|inversion Hnd; auto]|intros; apply (Hne g0); right; assumption]. }
        assert (Hinj : forall a b, In a hits -> In b hits -> (g_id (fst a), snd a) = (g_id (fst b), snd b) -> a = b).
        { intros [g m] [h v] H1 H2 E. cbn in E. injection E. intros -> E1. f_equal. apply (same_id cat); [exact cat_ids|apply (Hhits g v), H1|apply (Hhits h v), H2|exact E1]. }
        clear - Hnh Hinj. induction Hnh as [|p l H1 H2 IH]; cbn; constructor.
        + intros H. apply in_map_iff in H. destruct H as (q & E & H). assert (q = p) by (apply Hinj; cbn; auto). subst. contradiction.
        + apply IH. intros; apply Hinj; cbn; auto.
      - intros [k m]. split.
        + intros H. destruct (Hback k m H) as (g & <- & Hg). apply in_map_iff. exists (g, m). auto.
        + intros H. apply in_map_iff in H. destruct H as ([g v] & E & H). cbn in E. injection E. intros -> <-. apply Hall, H. }
    assert (Hatoms : Permutation (atoms_of (pairs assigned)) (m_atoms mol)).
    { etransitivity; [apply atoms_perm, Hperm|]. unfold atoms_of. rewrite map_map. cbn [snd]. exact Hcov. }
    exists counts, assigned, matched. split; [|exact Hperm].
    unfold fragment_priority. fold cat. rewrite Ec. cbv zeta. rewrite Er.
    assert (Ecov : List.length (union [] (List.concat (flat_map snd all))) = List.length (m_atoms mol)).
    { apply Permutation_length, NoDup_Permutation; [apply union_spec; constructor|exact atoms_once|]. intros x. destruct (union_spec (List.concat (flat_map snd all)) []) as [U _]. rewrite U. split.
      - intros [[]|H]. apply in_concat in H. destruct H as (m & H1 & H2). apply in_flat_map in H1. destruct H1 as ([k l] & H3 & H4). cbn in H4.
        assert (Hd : NoDup (map fst all)) by (eapply collect_keys; [|exact Ec]; constructor).
        assert (Hg : dget k all = Some l) by (apply In_dget; assumption).
        apply (all_spec _ Ec) in Hg. destruct Hg as (g & G1 & _ & G3 & _). subst l. destruct (cat_normal _ G1) as [N _]. apply (proj2 (proj2 (N _ H4))), H2.
      - intros Hx. right. apply (Permutation_in _ (Permutation_sym Hcov)) in Hx. apply in_concat in Hx. destruct Hx as (m & H1 & H2). apply in_map_iff in H1. destruct H1 as ([g v] & E & H1). cbn in E. subst v.
        apply Hhits in H1. destruct H1 as [G1 G2]. assert (Hg : dget (g_id g) all = Some (g_hits g)) by (apply (all_spec _ Ec); exists g; repeat split; auto; intros E; rewrite E in G2; destruct G2).
        apply in_concat. exists m. split; [|exact H2]. apply in_flat_map. exists (g_id g, g_hits g). split; [|exact G2].
        apply dget_In, Hg. }
    rewrite Ecov, Nat.eqb_refl. cbn [negb].
    assert (Ecomp : complete mol cat (matched, counts, assigned) = true).
    { unfold complete. rewrite (proj2 (Nat.eqb_eq _ _)). 2:{ symmetry. apply Permutation_length. etransitivity; [apply NoDup_Permutation; eassumption|exact Hatoms]. }
      cbn [andb]. apply Nat.eqb_eq. rewrite hydrogens_pairs, <- Hhyd.
      assert (Hs : forall l l' : list nat, Permutation l l' -> sum l = sum l') by (intros l l' P; unfold sum; induction P; cbn; lia).
      rewrite (Hs _ _ (Permutation_map _ Hperm)). rewrite map_map. unfold sum, list_sum. f_equal. apply map_ext_in. intros [g m] Hgm. cbn [fst snd].
      rewrite (object_of_spec _ _ cat_ids (proj1 (proj1 (Hhits g m) Hgm))). reflexivity. }
    rewrite Ecomp. reflexivity.
  Qed.
End Answer.

(* --- smarts_fragment --- *)
Lemma union_once l : List.length (union [] l) = List.length l -> NoDup l.
Proof.
  intros H. destruct (union_spec l []) as [U1 U2]. apply (NoDup_incl_NoDup (U2 (NoDup_nil _))); [lia|]. intros x Hx. apply U1 in Hx. destruct Hx as [[]|Hx]; exact Hx.
Qed.
Lemma union_nodup l : NoDup l -> List.length (union [] l) = List.length l.
Proof. intros H. destruct (union_spec l []) as [U1 U2]. apply Permutation_length, NoDup_Permutation; [apply U2; constructor|exact H|]. intros x. rewrite U1. cbn. tauto. Qed.
Lemma del_incl {A} : forall i (l l' : list A), del i l = Some l' -> incl l' l.
Proof.
  intros i l. revert i. induction l as [|x l IH]; intros i l' H; [destruct i; discriminate|]. destruct i; cbn in H; [injection H; intros E y Hy; subst; right; exact Hy|].
  destruct (del i l) as [r|] eqn:E; [|discriminate]. injection H. intros <- y [-> | Hy]; [left; reflexivity|right; apply (IH _ _ E), Hy].
Qed.
(* fewer matches of the same groups *)
Definition thinned (a b : matches) : Prop := Forall2 (fun x y : nat * list (list nat) => fst x = fst y /\ incl (snd y) (snd x)) a b.
Lemma thinned_refl a : thinned a a. Proof. induction a; constructor; [split; [reflexivity|intros x H; exact H]|assumption]. Qed.
Lemma thinned_trans a b c : thinned a b -> thinned b c -> thinned a c.
Proof.
  intros H. revert c. induction H as [|x y a b [H1 H2] F IH]; intros c Hc; inversion Hc as [|? z ? c' [H3 H4] F']; subst; constructor; [|apply IH, F'].
  split; [congruence|]. intros q Hq. apply H2, H4, Hq.
Qed.
Lemma thinned_dset k l' l a : dget k a = Some l -> incl l' l -> thinned a (dset k l' a).
Proof.
  induction a as [|[q w] a IH]; intros H Hi; [discriminate|]. cbn in *. destruct (Nat.eqb_spec q k) as [->|Hq].
  - injection H. intros ->. constructor; [split; [reflexivity|exact Hi]|apply thinned_refl].
  - constructor; [split; [reflexivity|intros x Hx; exact Hx]|apply IH; assumption].
Qed.
Lemma delete_thinned ds size : forall a b, delete_smaller ds size a = Some b -> thinned a b.
Proof.
  induction ds as [|[[k i] s] ds IH]; intros a b H; cbn in H; [injection H; intros <-; apply thinned_refl|]. destruct (s =? size); [apply IH, H|].
  destruct (dget k a) as [l|] eqn:E; [|discriminate]. destruct (del i l) as [l'|] eqn:E2; [|discriminate].
  eapply thinned_trans; [|apply IH, H]. eapply thinned_dset; [exact E|eapply del_incl, E2].
Qed.
Lemma dedup_thinned fuel : forall a b, dedup fuel a = Some b -> thinned a b.
Proof.
  induction fuel as [|fuel IH]; intros a b H; cbn [dedup] in H; [injection H; intros <-; apply thinned_refl|].
  destruct (dups (flat a)) as [|d r]; [injection H; intros <-; apply thinned_refl|]. cbv zeta in H. destruct (1 <? times _ _); [apply IH, H|].
  destruct (delete_smaller _ _ a) as [c|] eqn:E; [|discriminate]. eapply thinned_trans; [eapply delete_thinned, E|apply IH, H].
Qed.
(* success: some of the matches found, of each group, cover every atom of the molecule once *)
Theorem C65_fragment_success natoms catalog deduplicate counts : fragment natoms catalog deduplicate = Some (counts, true) ->
  exists kept, Forall2 (fun x y => fst x = fst y /\ incl (snd y) (snd x)) (filter (fun kl => match snd kl with [] => false | _ => true end) catalog) kept /\
    NoDup (List.concat (flat_map snd kept)) /\ List.length (List.concat (flat_map snd kept)) = natoms.
Proof.
  unfold fragment. cbv zeta. fold (all_hits catalog). intros H. destruct (if deduplicate then dedup 100 (all_hits catalog) else Some (all_hits catalog)) as [kept|] eqn:E; [|discriminate].
  exists kept. assert (T : thinned (all_hits catalog) kept) by (destruct deduplicate; [eapply dedup_thinned, E|injection E; intros <-; apply thinned_refl]).
  split; [exact T|]. injection H. intros Hs _. apply andb_true_iff in Hs. destruct Hs as [H1 H2]. apply Nat.eqb_eq in H1. apply Nat.eqb_eq in H2. split; [|exact H2].
  apply union_once. unfold flat in *. congruence.
Qed.
Lemma times_once x l : NoDup l -> times x l <= 1.
Proof.
  intros H. unfold times. induction H as [|y l H1 H2 IH]; cbn; [lia|]. destruct (Nat.eqb_spec x y) as [->|]; [|exact IH]. cbn.
  replace (filter (Nat.eqb y) l) with (@nil nat); [cbn; lia|]. clear - H1. induction l as [|z l IH]; [reflexivity|]. cbn. destruct (Nat.eqb_spec y z) as [->|]; [exfalso; apply H1; left; reflexivity|apply IH; intros H; apply H1; right; exact H].
Qed.
Lemma dups_nodup l : NoDup l -> dups l = [].
Proof. intros H. unfold dups. induction (union [] l) as [|x u IH]; [reflexivity|]. cbn [filter]. pose proof (times_once x l H). destruct (Nat.ltb_spec 1 (times x l)); [lia|exact IH]. Qed.
Lemma dedup_none fuel a : dups (flat a) = [] -> dedup fuel a = Some a.
Proof. intros H. destruct fuel; cbn [dedup]; [reflexivity|]. rewrite H. reflexivity. Qed.
(* matches which share no atom are all counted, and it is a success if they have all atoms *)
Theorem C65_fragment_counts natoms catalog deduplicate : NoDup (List.concat (flat_map snd catalog)) ->
  exists counts, fragment natoms catalog deduplicate = Some (counts, List.length (List.concat (flat_map snd catalog)) =? natoms) /\
    forall k n, In (k, n) counts <-> exists l, In (k, l) catalog /\ n = List.length l /\ l <> [].
Proof.
  intros H. assert (E : flat_map snd (all_hits catalog) = flat_map snd catalog).
  { clear. induction catalog as [|[k [|m l]] c IH]; cbn; [reflexivity|exact IH|]. f_equal. f_equal. exact IH. }
  unfold fragment. cbv zeta. exists (map (fun kl => (fst kl, List.length (snd kl))) (all_hits catalog)).
  assert (Ed : (if deduplicate then dedup 100 (all_hits catalog) else Some (all_hits catalog)) = Some (all_hits catalog)).
  { destruct deduplicate; [|reflexivity]. apply dedup_none. unfold flat. rewrite E. apply dups_nodup, H. }
  rewrite Ed. unfold flat. rewrite E, (union_nodup _ H), andb_diag. split; [reflexivity|]. intros k n. unfold all_hits. rewrite in_map_iff. split.
  - intros ([q l] & Eq & Hq). apply filter_In in Hq. destruct Hq as [Hq Hl]. cbn [fst snd] in *. injection Eq. intros <- <-. exists l. split; [exact Hq|]. split; [reflexivity|]. intros ->. discriminate.
  - intros (l & H1 & -> & H2). exists (k, l). split; [reflexivity|]. apply filter_In. split; [exact H1|]. destruct l; [contradiction|reflexivity].
Qed.
(* Claimed: with success the groups counted have as many atoms as the molecule. Refuted: the counts are made before the overlapping matches are
   removed. Here group 1 matches the whole molecule and group 2 one of its atoms; the match of group 2 is removed and still counted. *)
Theorem C65_stale_counts_refuted : fragment 2 [(1, [[0; 1]]); (2, [[0]])] true = Some ([(1, 1); (2, 1)], true).
Proof. reflexivity. Qed.
(* Claimed: the overlapping matches can be removed. Refuted: they are deleted by their positions before the deletions; with two in a group the second
   deletion misses, *)
Theorem C65_deletion_refuted : fragment 3 [(1, [[0; 1; 2]]); (2, [[0; 1]; [0; 2]])] true = None.
Proof. reflexivity. Qed.
(* or deletes a match which does not overlap: the atom 3 is lost, although the matches (0, 1, 2) of group 1 and (3, 4) of group 2 cover the molecule. *)
Theorem C65_wrong_deletion_refuted : fragment 5 [(1, [[0; 1; 2]]); (2, [[0; 1]; [0; 2]; [3; 4]])] true = Some ([(1, 1); (2, 3)], false) /\
  NoDup ([0; 1; 2] ++ [3; 4]) /\ List.length ([0; 1; 2] ++ [3; 4]) = 5.
Proof. split; [reflexivity|]. split; [repeat constructor; cbn; intuition lia|reflexivity]. Qed.
(* Claimed: smarts_fragment_priority returns five values. Refuted: three if the SMILES cannot be read. *)
Theorem C65_unreadable_refuted catalog : fragment_priority None catalog = Three.
Proof. reflexivity. Qed.
(* Claimed: groups that cover the molecule are found if there are any. Refuted: at most four matches are set aside. Here five matches of a group
   with high priority are in the way of five matches of another group which would cover the molecule. *)
Definition block (p : Z) (k : nat) (hits : list (list nat)) : group := {| g_id := k; g_prio := Some p; g_H := 0; g_only_H := false; g_from_smarts := false; g_several := false; g_hits := hits; g_hits_H := [] |}.
Theorem C65_search_refuted : let mol := {| m_atoms := seq 0 10; m_H := 0; m_H_at := fun _ => 0; m_all := 10 |} in
  let catalog := [block 2 1 [[0]; [2]; [4]; [6]; [8]]; block 1 2 [[0; 1]; [2; 3]; [4; 5]; [6; 7]; [8; 9]]] in
  (exists counts assigned matched, fragment_priority (Some mol) catalog = Five counts assigned matched false) /\
  Permutation (List.concat (g_hits (block 1 2 [[0; 1]; [2; 3]; [4; 5]; [6; 7]; [8; 9]]))) (m_atoms mol).
Proof. cbv zeta. split; [vm_compute; do 3 eexists; reflexivity|reflexivity]. Qed.

(* --- priorities --- *)
Definition within (a b : atom_counts) : Prop := aH a <= aH b /\ aC a <= aC b /\ aO a <= aO b /\ aN a <= aN b /\ aCl a <= aCl b /\ aF a <= aF b /\ aSi a <= aSi b /\ aS a <= aS b.
Definition within_bonds (a b : bond_counts) : Prop := bS a <= bS b /\ bD a <= bD b /\ bT a <= bT b /\ bA a <= bA b.
(* a group with more of the known atoms or bonds has a higher priority *)
Theorem C65_priority_of_parts a b c d : within a b -> within_bonds c d -> priority_from_atoms a (Some c) <= priority_from_atoms b (Some d) /\
  (priority_from_atoms a (Some c) = priority_from_atoms b (Some d) -> within b a /\ within_bonds d c).
Proof. unfold within, within_bonds, priority_from_atoms. lia. Qed.
(* Claimed: a group with more atoms has a higher priority. Refuted: bromine, iodine, phosphorus and others do not count. *)
Theorem C65_other_atoms_refuted a n : priority_from_atoms {| aH := aH a; aC := aC a; aO := aO a; aN := aN a; aCl := aCl a; aF := aF a; aSi := aSi a; aS := aS a; a_other := n |} None = priority_from_atoms a None.
Proof. reflexivity. Qed.

(* --- assignments as strings --- *)
Definition digit_like (c : ascii) : Prop := In c (list_ascii_of_string "-0123456789").
Lemma uint_chars d : forall c, In c (list_ascii_of_string (NilEmpty.string_of_uint d)) -> digit_like c.
Proof. unfold digit_like. induction d; intros c H; cbn in H; [destruct H|..]; destruct H as [<- | H]; [cbn; tauto|apply IHd, H|..]; try (cbn; tauto); apply IHd, H. Qed.
Lemma nz_chars d c : In c (list_ascii_of_string (NilZero.string_of_uint d)) -> digit_like c.
Proof. destruct d; cbn [NilZero.string_of_uint]; [intros [<-|[]]; unfold digit_like; cbn; tauto|apply uint_chars..]. Qed.
Lemma int_chars z c : In c (list_ascii_of_string (str_int z)) -> digit_like c.
Proof.
  unfold str_int. destruct (Z.to_int z) as [d|d]; cbn [NilZero.string_of_int]; [apply nz_chars|]. intros [<- | H]; [unfold digit_like; cbn; tauto|eapply nz_chars, H].
Qed.
Lemma str_int_nonempty z : str_int z <> EmptyString.
Proof. unfold str_int. destruct (Z.to_int z) as [d|d]; cbn; [|discriminate]. destruct d; cbn; discriminate. Qed.
Lemma int_of_str z : int_str (str_int z) = Some z.
Proof.
  unfold int_str, str_int. rewrite NilZero.isi; [rewrite DecimalZ.of_to; reflexivity| |].
  - destruct z; cbn; try discriminate. intros E. injection E. intros H. destruct (DecimalPos.Unsigned.to_uint_nonnil _ H).
  - destruct z; cbn; try discriminate. intros E. injection E. intros H. destruct (DecimalPos.Unsigned.to_uint_nonnil _ H).
Qed.
Lemma split_app sep s t : ~ In sep (list_ascii_of_string s) -> split sep (s ++ String sep t)%string = s :: split sep t.
Proof.
  induction s as [|c s IH]; intros H; cbn.
  - rewrite Ascii.eqb_refl. reflexivity.
  - cbn in H. destruct (Ascii.eqb_spec c sep) as [->|Hc]; [tauto|]. rewrite IH by tauto. reflexivity.
Qed.
Lemma split_none sep s : ~ In sep (list_ascii_of_string s) -> split sep s = [s].
Proof. induction s as [|c s IH]; intros H; cbn; [reflexivity|]. cbn in H. destruct (Ascii.eqb_spec c sep) as [->|Hc]; [tauto|]. rewrite IH by tauto. reflexivity. Qed.
Lemma split_join sep l : l <> [] -> (forall s, In s l -> ~ In sep (list_ascii_of_string s)) -> split sep (join sep l) = l.
Proof.
  induction l as [|x [|y l] IH]; intros Hn H; [contradiction|cbn; apply split_none, H; left; reflexivity|].
  change (join sep (x :: y :: l)) with (x ++ String sep (join sep (y :: l)))%string. rewrite split_app by (apply H; left; reflexivity).
  f_equal. apply IH; [discriminate|]. intros s Hs. apply H. right; exact Hs.
Qed.
Lemma chars_app s t : list_ascii_of_string (s ++ t)%string = list_ascii_of_string s ++ list_ascii_of_string t.
Proof. induction s; cbn; [reflexivity|]. f_equal. assumption. Qed.
(* a dictionary of counts is read back from its string, for separators other than digits, the minus sign and each other *)
Theorem C65_round_trip ps kv counts : ps <> kv -> ~ digit_like ps -> ~ digit_like kv -> NoDup (map fst counts) ->
  str_to_assignment ps kv (assignment_to_str ps kv counts) = Some counts.
Proof.
  intros Hne Hps Hkv Hd. destruct counts as [|p0 rest]; [reflexivity|]. set (counts := p0 :: rest) in *.
  set (items := map (fun p => (str_int (fst p) ++ String kv (str_int (snd p)))%string) counts).
  assert (Hsplit : split ps (assignment_to_str ps kv counts) = items).
  { apply split_join; [discriminate|]. intros s Hs. apply in_map_iff in Hs. destruct Hs as ([k v] & <- & _). cbn [fst snd]. rewrite chars_app. cbn [list_ascii_of_string]. intros H. apply in_app_iff in H.
    destruct H as [H|[H|H]]; [apply Hps, (int_chars k), H|congruence|apply Hps, (int_chars v), H]. }
  assert (Hn : assignment_to_str ps kv counts <> EmptyString).
  { intros E. rewrite E in Hsplit. cbn in Hsplit. unfold items, counts in Hsplit. destruct p0 as [k v], rest; cbn in Hsplit; [|discriminate]. injection Hsplit. destruct (str_int k) eqn:Ek; [destruct (str_int_nonempty k Ek)|discriminate]. }
  unfold str_to_assignment. destruct (assignment_to_str ps kv counts) as [|c s] eqn:Es; [contradiction|]. rewrite Hsplit. unfold items.
  assert (G : forall l d, NoDup (map fst (d ++ l)) -> fold_left (fun d g => match d, split kv g with
      | Some d, [k; v] => match int_str k, int_str v with Some k, Some v => Some (zset k v d) | _, _ => None end | _, _ => None end)
      (map (fun p => (str_int (fst p) ++ String kv (str_int (snd p)))%string) l) (Some d) = Some (d ++ l)).
  { clear - Hkv. induction l as [|[k v] l IH]; intros d Hd; cbn [map fold_left fst snd]; [rewrite app_nil_r; reflexivity|].
    rewrite split_app by (intros H; apply Hkv, (int_chars k), H). rewrite split_none by (intros H; apply Hkv, (int_chars v), H). rewrite !int_of_str.
    assert (Hz : zset k v d = d ++ [(k, v)]).
    { rewrite map_app in Hd. apply NoDup_remove_2 in Hd. clear - Hd. induction d as [|[q w] d IHd]; [reflexivity|]. cbn in *. destruct (Z.eqb_spec q k) as [->|Hq]; [tauto|]. rewrite IHd by tauto. reflexivity. }
    rewrite Hz, IH by (rewrite <- app_assoc; exact Hd). rewrite <- app_assoc. reflexivity. }
  apply (G counts []). exact Hd.
Qed.
Example C65_round_trip_met : str_to_assignment "," ":" "1:2,19:1" = Some [(1, 2); (19, 1)]%Z /\ assignment_to_str "," ":" [(1, 2); (19, 1)]%Z = "1:2,19:1"%string /\ ~ digit_like ",".
Proof. split; [reflexivity|]. split; [reflexivity|]. unfold digit_like. cbn. intuition discriminate. Qed.
(* ethanol: atoms 0 (CH3), 1 (CH2), 2 (OH); the CH3 pattern of the catalog also matches inside a group with higher priority *)
Definition ethanol := {| m_atoms := [0; 1; 2]; m_H := 6; m_H_at := fun i => nth i [3; 2; 1] 0; m_all := 9 |}.
Definition part (p : Z) (k h : nat) (hits : list (list nat)) : group := {| g_id := k; g_prio := Some p; g_H := h; g_only_H := false; g_from_smarts := false; g_several := false; g_hits := hits; g_hits_H := [] |}.
Definition catalog_alcohol := [part 103 1 3 [[0]]; part 102 2 2 [[1]]; part 151 14 1 [[2]]].
Example C65_hypotheses_met : (forall g, In g catalog_alcohol -> ordinary ethanol g) /\ NoDup (map g_id catalog_alcohol) /\ ~ is_hydrogen ethanol catalog_alcohol /\
  fragment_priority (Some ethanol) catalog_alcohol = Five [(14, 1); (1, 1); (2, 1)] [(14, [[2]]); (1, [[0]]); (2, [[1]])] [2; 0; 1] true.
Proof.
  split; [|split; [|split; [|reflexivity]]].
  - intros g [<-|[<-|[<-|[]]]]; (split; [intros m [<-|[]]; split; [discriminate|split; [repeat constructor; intros []|intros x [<-|[]]; cbn; auto]]|discriminate]).
  - repeat constructor; cbn; intuition discriminate.
  - intros (g & Hg & _ & E & _). cbn in E. discriminate.
Qed.
(* a first choice that must be set aside: group 3 (priority 300) covers atoms 0 and 1 but leaves the hydrogens wrong *)
Example C65_set_aside : fragment_priority (Some ethanol) (part 300 3 4 [[0; 1]] :: catalog_alcohol) = Five [(14, 1); (1, 1); (2, 1)] [(14, [[2]]); (1, [[0]]); (2, [[1]])] [2; 0; 1] true.
Proof. reflexivity. Qed.
