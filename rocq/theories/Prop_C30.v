(* C30: StreamArgs.flash_state reflects the current specifications. *)
From Coq Require Import Reals List Bool Arith Lra Lia FunctionalExtensionality.
From Verif Require Import Base BaseFacts Model_stream Model_flow Prop_C29 Prop_C31.
Import ListNotations.
Open Scope R_scope.

(* ---- histories: assignments and clears (raising or not), reads, replacing the flasher, changing Q_TP ---- *)
Inductive act : Type := Do (c : stmt) | Read | SetFlasher (F : option flasher) | SetQTP (q : option (R * R)).
Definition step (o : obj) (a : act) : obj :=
  match a with
  | Do c => mkobj (after (exec c (spec o))) (fl o) (Q_TP o) (cache o)
  | Read => snd (flash_state o)
  | SetFlasher F => mkobj (spec o) F (Q_TP o) (cache o)
  | SetQTP q => mkobj (spec o) (fl o) q (cache o)
  end.
Definition history (acts : list act) (o : obj) : obj := fold_left step acts o.
(* a new object with the same specifications and settings that was never read *)
Definition fresh (o : obj) : obj := mkobj (spec o) (fl o) (Q_TP o) None.
Definition never_read (o : obj) : Prop := cache o = None.

Lemma oeqb_eq a b : oeqb a b = true -> a = b.
Proof. destruct a, b; simpl; try discriminate; auto. intros H. destruct (Reqb_spec r r0); congruence. Qed.
Lemma leqb_eq a : forall b, leqb a b = true -> a = b.
Proof.
  induction a as [|x a IH]; intros [|y b]; simpl; try discriminate; auto. intros H. apply andb_true_iff in H. destruct H as [H1 H2].
  destruct (Reqb_spec x y); [|discriminate]. f_equal; auto.
Qed.
Lemma key_eqb_eq a b : key_eqb a b = true -> (forall k, fst a k = fst b k) /\ snd a = snd b.
Proof.
  unfold key_eqb. intros H. apply andb_true_iff in H. destruct H as [H1 H2]. split; [|now apply leqb_eq].
  intros k. apply oeqb_eq. rewrite forallb_forall in H1. apply H1. destruct k; simpl; tauto.
Qed.

(* the arguments do not depend on the cache *)
Lemma zs_calc_fresh o : zs_calc (fresh o) = zs_calc o. Proof. reflexivity. Qed.
Lemma flash_H_cache s f q c c' : flash_H (mkobj s f q c) = flash_H (mkobj s f q c').
Proof.
  unfold flash_H. cbn [spec].
  replace (n_calc (mkobj s f q c) Err) with (n_calc (mkobj s f q c') Err) by reflexivity. reflexivity.
Qed.
Lemma flash_args_cache s f q c c' : flash_args (mkobj s f q c) = flash_args (mkobj s f q c').
Proof.
  unfold flash_args. cbn [spec]. rewrite (flash_H_cache s f q c c').
  replace (zs_calc (mkobj s f q c)) with (zs_calc (mkobj s f q c')) by reflexivity. reflexivity.
Qed.
Lemma flash_args_fresh o : flash_args (fresh o) = flash_args o.
Proof. destruct o. apply flash_args_cache. Qed.

(* what the cache holds: the flash, by the flasher F, of some earlier arguments *)
Definition cached (F : flasher) (o : obj) : Prop :=
  match cache o with
  | None => True
  | Some (k, m) => exists o0 a, flash_args o0 = Ok a /\ k = flash_key o0 a /\ flash F a = Ok m
  end.
Lemma cached_read F o : fl o = Some F -> cached F o -> cached F (snd (flash_state o)) /\ fl (snd (flash_state o)) = Some F /\
  spec (snd (flash_state o)) = spec o.
Proof.
  intros FL C. unfold flash_state. destruct (_ && _)%bool; [|auto].
  destruct (flash_args o) as [a|] eqn:A; [|auto].
  assert (miss : let r := match fl o with None => (Err, o) | Some F => match flash F a with Err => (Err, o)
      | Ok m => (Ok (Some m), mkobj (spec o) (fl o) (Q_TP o) (Some (flash_key o a, m))) end end in
      cached F (snd r) /\ fl (snd r) = Some F /\ spec (snd r) = spec o).
  { rewrite FL. destruct (flash F a) as [m|] eqn:E; simpl; auto. unfold cached; simpl. splits; auto. exists o, a. auto. }
  destruct (cache o) as [[k m]|]; [|exact miss]. destruct (key_eqb _ _); [auto | exact miss].
Qed.

Lemma args_other o a : flash_args o = Ok a ->
  forall k, k <> f_H -> k <> f_H_reactive -> k <> f_energy -> k <> f_energy_reactive ->
    ~ In k [f_n; f_m; f_Q; f_Ql; f_Qg] -> fsc a k = sc (spec o) k.
Proof.
  unfold flash_args. destruct (zs_calc o) as [[z|]|]; cbn [bind]; try discriminate.
  destruct (full z); cbn [bind]; try discriminate. destruct (flash_H o); cbn [bind]; try discriminate.
  intros E; inversion E; subst. intros k. destruct k; simpl; intuition congruence.
Qed.
Lemma args_none o a : flash_args o = Ok a -> forall k, In k [f_energy; f_energy_reactive; f_n; f_m; f_Q; f_Ql; f_Qg] -> fsc a k = None.
Proof.
  unfold flash_args. destruct (zs_calc o) as [[z|]|]; cbn [bind]; try discriminate.
  destruct (full z); cbn [bind]; try discriminate. destruct (flash_H o); cbn [bind]; try discriminate.
  intros E; inversion E; subst. intros k I. simpl in I. intuition (subst; reflexivity).
Qed.

Lemma key_args o o0 a a0 : flash_args o = Ok a -> flash_args o0 = Ok a0 -> key_eqb (flash_key o a) (flash_key o0 a0) = true ->
  fzs a = fzs a0 /\ forall k, k <> f_H_mass -> fsc a k = fsc a0 k.
Proof.
  intros A A0 K. apply key_eqb_eq in K. destruct K as [K1 K2]. split; auto. intros k D.
  specialize (K1 k). destruct k; try exact K1; try congruence;
    rewrite (args_none o a A), (args_none o0 a0 A0); simpl; tauto.
Qed.

(* Reading never returns the flash of a specification that differs from the current one in anything but H_mass: it is
   the flash of the current arguments with some value of H_mass. *)
Theorem C30_stale_only_in_H_mass acts o m F : never_read o -> fl o = Some F -> (forall G, ~ In (SetFlasher G) acts) ->
  fst (flash_state (history acts o)) = Ok (Some m) ->
  exists a h, flash_args (history acts o) = Ok a /\
    flash F (mkfspec (fun k => if sf_eq_dec k f_H_mass then h else fsc a k) (fzs a)) = Ok m.
Proof.
  intros N FL NF.
  assert (I : fl (history acts o) = Some F /\ cached F (history acts o)).
  { assert (C : cached F o) by (unfold cached; unfold never_read in N; rewrite N; exact I).
    clear N. revert o FL C. induction acts as [|x acts IH]; intros o FL C; auto.
    change (history (x :: acts) o) with (history acts (step o x)).
    assert (NF' : forall G, ~ In (SetFlasher G) acts) by (intros G J; apply (NF G); simpl; auto).
    destruct x; cbn [step].
    - apply IH; auto.
    - destruct (cached_read F o FL C) as (A & B & _). apply IH; auto.
    - elim (NF F0). simpl; auto.
    - apply IH; auto. }
  clear FL. destruct I as [FL C]. set (o' := history acts o) in *. clearbody o'. clear N NF.
  unfold flash_state. destruct (_ && _)%bool; [|discriminate].
  destruct (flash_args o') as [a|] eqn:A; [|discriminate].
  assert (same : mkfspec (fun k => if sf_eq_dec k f_H_mass then fsc a f_H_mass else fsc a k) (fzs a) = a).
  { destruct a as [f z]. simpl. f_equal. apply functional_extensionality. intros k. destruct (sf_eq_dec k f_H_mass); subst; auto. }
  assert (miss : fst (match fl o' with None => (Err, o') | Some F => match flash F a with Err => (Err, o')
      | Ok m => (Ok (Some m), mkobj (spec o') (fl o') (Q_TP o') (Some (flash_key o' a, m))) end end) = Ok (Some m) ->
      exists a0 h, Ok a = Ok a0 /\ flash F (mkfspec (fun k => if sf_eq_dec k f_H_mass then h else fsc a0 k) (fzs a0)) = Ok m).
  { rewrite FL. destruct (flash F a) as [m'|] eqn:E; simpl; [|discriminate]. intros Q. inversion Q; subst.
    exists a, (fsc a f_H_mass). split; auto. rewrite same. exact E. }
  unfold cached in C. destruct (cache o') as [[k m']|]; [|exact miss]. destruct (key_eqb (flash_key o' a) k) eqn:K; [|exact miss].
  simpl. intros Q. inversion Q; subst m'. destruct C as (o0 & a0 & A0 & -> & E).
  destruct (key_args o' o0 a a0 A A0 K) as [Kz Ks]. exists a, (fsc a0 f_H_mass). split; auto. rewrite <- E. f_equal.
  rewrite Kz. destruct a0 as [f0 z0]. simpl in *. f_equal. apply functional_extensionality. intros k. destruct (sf_eq_dec k f_H_mass); subst; auto.
Qed.

(* Histories that never assign H_mass and never replace the flasher: every read is the answer a new object with the
   same specifications would give (including its exceptions). *)
Theorem C30_flash_state_current acts o F : never_read o -> fl o = Some F -> sc (spec o) f_H_mass = None ->
  (forall G, ~ In (SetFlasher G) acts) -> (forall x, ~ In (Do (Set_ f_H_mass (Some x))) acts) ->
  fst (flash_state (history acts o)) = fst (flash_state (fresh (history acts o))).
Proof.
  intros N FL HM NF NH.
  set (inv o := fl o = Some F /\ sc (spec o) f_H_mass = None /\ match cache o with None => True | Some (k, m) =>
      exists o0 a, sc (spec o0) f_H_mass = None /\ flash_args o0 = Ok a /\ k = flash_key o0 a /\ flash F a = Ok m end).
  assert (I : inv (history acts o)).
  { assert (C : inv o) by (unfold inv; unfold never_read in N; rewrite N; auto).
    clear N HM FL. revert o C. induction acts as [|x acts IH]; intros o C; auto.
    change (history (x :: acts) o) with (history acts (step o x)).
    assert (NF' : forall G, ~ In (SetFlasher G) acts) by (intros G J; apply (NF G); simpl; auto).
    assert (NH' : forall y, ~ In (Do (Set_ f_H_mass (Some y))) acts) by (intros y J; apply (NH y); simpl; auto).
    destruct C as (FL & HM & C). apply IH; auto. destruct x; cbn [step].
    - unfold inv; simpl. splits; auto.
      assert (S : stored (after (exec c (spec o))) (KS f_H_mass) = false).
      { destruct (stored (after (exec c (spec o))) (KS f_H_mass)) eqn:E; auto. apply exec_stores in E. destruct E as [E|E].
        - simpl in E. rewrite HM in E. discriminate.
        - destruct c as [k [v|]|k [v|]| | |]; simpl in E; try discriminate. inversion E; subst. elim (NH v). simpl; auto. }
      simpl in S. destruct (sc (after (exec c (spec o))) f_H_mass); [discriminate | reflexivity].
    - unfold flash_state. destruct (_ && _)%bool; [|unfold inv; auto].
      destruct (flash_args o) as [a|] eqn:A; [|unfold inv; auto].
      assert (miss : inv (snd (match fl o with None => (Err, o) | Some F => match flash F a with Err => (Err, o)
        | Ok m => (Ok (Some m), mkobj (spec o) (fl o) (Q_TP o) (Some (flash_key o a, m))) end end))).
      { rewrite FL. destruct (flash F a) as [m|] eqn:E; unfold inv; simpl; splits; auto. exists o, a. auto. }
      destruct (cache o) as [[k m]|] eqn:Ca; [|exact miss]. destruct (key_eqb _ _); [|exact miss].
      unfold inv; simpl. rewrite Ca. auto.
    - elim (NF F0). simpl; auto.
    - unfold inv; simpl; auto. }
  set (o' := history acts o) in *. clearbody o'. destruct I as (FL' & HM' & C).
  unfold flash_state. cbn [fresh spec cache fl]. destruct (_ && _)%bool; [|reflexivity].
  rewrite flash_args_fresh. destruct (flash_args o') as [a|] eqn:A; [|reflexivity].
  assert (miss : fst (match fl o' with None => (Err, o') | Some F => match flash F a with Err => (Err, o')
      | Ok m => (Ok (Some m), mkobj (spec o') (fl o') (Q_TP o') (Some (flash_key o' a, m))) end end) =
    fst (match fl o' with None => (Err, fresh o') | Some F => match flash F a with Err => (Err, fresh o')
      | Ok m => (Ok (Some m), mkobj (spec o') (fl o') (Q_TP (fresh o')) (Some (flash_key (fresh o') a, m))) end end)).
  { rewrite FL'. destruct (flash F a); reflexivity. }
  destruct (cache o') as [[k m]|]; [|exact miss]. destruct (key_eqb (flash_key o' a) k) eqn:K; [|exact miss].
  destruct C as (o0 & a0 & H0 & A0 & -> & E). destruct (key_args o' o0 a a0 A A0 K) as [Kz Ks].
  assert (a = a0).
  { destruct a as [f z], a0 as [f0 z0]. simpl in *. f_equal; auto. apply functional_extensionality. intros k.
    destruct (sf_eq_dec k f_H_mass) as [->|D]; auto.
    pose proof (args_other o' _ A f_H_mass) as P. pose proof (args_other o0 _ A0 f_H_mass) as P0. simpl in P, P0.
    rewrite P, P0 by (clear; first [discriminate | simpl; intuition discriminate]). congruence. }
  subst a0. rewrite FL', E. reflexivity.
Qed.

(* reading twice gives the same answer, and reading does not change what later reads return *)
Theorem C30_read_idempotent o m : fst (flash_state o) = Ok (Some m) -> fst (flash_state (snd (flash_state o))) = Ok (Some m).
Proof.
  unfold flash_state at 1 3. destruct (composition_specified (spec o) && state_specified (spec o))%bool eqn:B; [|discriminate].
  destruct (flash_args o) as [a|] eqn:A; [|discriminate].
  assert (hit : forall k, cache o = Some (k, m) -> key_eqb (flash_key o a) k = true -> fst (flash_state o) = Ok (Some m)).
  { intros k C K. unfold flash_state. rewrite B, A, C, K. reflexivity. }
  assert (refl : forall k, key_eqb k k = true).
  { intros [f z]. unfold key_eqb. apply andb_true_iff. split.
    - apply forallb_forall. intros k _. simpl. destruct (f k); simpl; auto. now rewrite Reqb_true.
    - simpl. induction z; simpl; auto. rewrite Reqb_true by auto. exact IHz. }
  assert (miss : let r := match fl o with None => (Err, o) | Some F => match flash F a with Err => (Err, o)
      | Ok m => (Ok (Some m), mkobj (spec o) (fl o) (Q_TP o) (Some (flash_key o a, m))) end end in
      fst r = Ok (Some m) -> fst (flash_state (snd r)) = Ok (Some m)).
  { destruct (fl o) as [F|] eqn:FL; [|discriminate]. destruct (flash F a) as [m'|]; [|discriminate]. simpl. intros Q. inversion Q; subst.
    unfold flash_state. cbn [spec]. rewrite B. rewrite <- FL.
    replace (flash_args (mkobj (spec o) (fl o) (Q_TP o) (Some (flash_key o a, m)))) with (flash_args o) by (destruct o; apply flash_args_cache).
    rewrite A. cbn [cache].
    change (flash_key (mkobj (spec o) (fl o) (Q_TP o) (Some (flash_key o a, m))) a) with (flash_key o a). rewrite refl. reflexivity. }
  destruct (cache o) as [[k m']|] eqn:C; [|exact miss]. destruct (key_eqb (flash_key o a) k) eqn:K; [|exact miss].
  simpl. intros Q. inversion Q; subst. eapply hit; eauto.
Qed.

(* ---- what is flashed ---- *)
(* every stored state variable is handed over unchanged; the composition is the one all the views show *)
Theorem C30_arguments o a : flash_args o = Ok a ->
  zs_calc o = Ok (Some (somes (fzs a))) /\
  (forall k v, In (KS k) state_names -> k <> f_energy -> k <> f_energy_reactive -> sc (spec o) k = Some v -> fsc a k = Some v) /\
  (forall k v, fsc a k = Some v -> sc (spec o) k = Some v \/
     (k = f_H /\ exists e, sc (spec o) f_energy = Some e) \/ (k = f_H_reactive /\ exists e, sc (spec o) f_energy_reactive = Some e)).
Proof.
  unfold flash_args. destruct (zs_calc o) as [[z|]|]; cbn [bind]; try discriminate.
  unfold full. destruct (complete z) eqn:Cz; cbn [bind]; try discriminate. destruct (flash_H o) as [HH|] eqn:EH; cbn [bind]; try discriminate.
  intros E; inversion E; subst; clear E. cbn [fzs fsc]. splits.
  - do 2 f_equal. clear -Cz. induction z as [|[x|] z IH]; simpl in *; try discriminate; auto. f_equal. auto.
  - intros k v I D1 D2 S. destruct k; try exact S; try congruence; try (rewrite S; reflexivity); simpl in I; intuition congruence.
  - assert (Q : (forall h, fst HH = Some h -> exists e, sc (spec o) f_energy = Some e) /\
                (forall h, snd HH = Some h -> exists e, sc (spec o) f_energy_reactive = Some e)).
    { unfold flash_H in EH. destruct (Nat.ltb _ _); [|inversion EH; simpl; split; discriminate].
      destruct (sc (spec o) f_energy), (sc (spec o) f_energy_reactive); cbn [bind] in EH;
        repeat match type of EH with bind ?r _ = _ => destruct r; cbn [bind] in EH; [|discriminate] end;
        inversion EH; subst; simpl; split; intros; eauto; discriminate. }
    destruct Q as [Q1 Q2]. intros k v S. destruct k; auto; try discriminate.
    + destruct (sc (spec o) f_H); simpl in S; [left; auto|]. right; left. split; auto. eapply Q1; eauto.
    + destruct (sc (spec o) f_H_reactive); simpl in S; [left; auto|]. right; right. split; auto. eapply Q2; eauto.
Qed.

(* energy with one other state variable and a known positive molar flow: the flash gets H = energy / n *)
Theorem C30_energy o a e k v n :
  sc (spec o) f_energy = Some e -> sc (spec o) k = Some v -> In (KS k) state_names -> k <> f_energy -> k <> f_H -> k <> f_energy_reactive ->
  (forall j, In (KS j) state_names -> j <> k -> j <> f_energy -> sc (spec o) j = None) ->
  n_calc o Err = Ok (Some n) -> 0 < n -> flash_args o = Ok a -> fsc a f_H = Some (e / n) /\ fsc a k = Some v.
Proof.
  intros E K I D1 D2 D3 O N P A. destruct (C30_arguments o a A) as (_ & A2 & _). split; [|apply A2; auto].
  unfold flash_args in A. destruct (zs_calc o) as [[z|]|]; cbn [bind] in A; try discriminate.
  destruct (full z); cbn [bind] in A; try discriminate.
  assert (L : (length (filter (fun j => isSome (sc (spec o) j)) spec_count_vars) <= 1)%nat).
  { rewrite <- number_map. apply (number_one _ _ (KS k)); [nodup|]. intros j J S. apply in_map_iff in J. destruct J as (x & <- & J). f_equal.
    destruct (sf_eq_dec x k) as [|D]; auto. exfalso.
    assert (Z : sc (spec o) x = None).
    { apply O; auto; [clear -J; destruct x; simpl in *; intuition congruence | intros ->; simpl in J; intuition discriminate]. }
    simpl in S. rewrite Z in S. discriminate. }
  unfold flash_H in A. replace (Nat.ltb _ 2) with true in A by (symmetry; apply Nat.ltb_lt; lia).
  rewrite E, N in A. cbn [bind] in A. unfold divide in A. rewrite Reqb_false in A by lra. cbn [bind] in A.
  rewrite (O f_energy_reactive) in A; try discriminate; try congruence; [|simpl; tauto]. cbn [bind] in A. inversion A; subst; clear A. cbn [fsc fst snd].
  rewrite (O f_H); try discriminate; try congruence; [reflexivity | simpl; tauto].
Qed.

(* without a known molar flow the energy is not a specification of the flash *)
Theorem C30_energy_without_flow o a : n_calc o Err = Ok None -> flash_args o = Ok a -> fsc a f_H = sc (spec o) f_H /\ fsc a f_H_reactive = sc (spec o) f_H_reactive.
Proof.
  intros N A. unfold flash_args in A. destruct (zs_calc o) as [[z|]|]; cbn [bind] in A; try discriminate. destruct (full z); cbn [bind] in A; try discriminate.
  assert (FH : flash_H o = Ok (None, None)). { unfold flash_H. destruct (Nat.ltb _ _); auto. rewrite N. destruct (sc (spec o) f_energy), (sc (spec o) f_energy_reactive); reflexivity. }
  rewrite FH in A. cbn [bind] in A. inversion A; subst. cbn [fsc fst snd]. destruct (sc (spec o) f_H), (sc (spec o) f_H_reactive); auto.
Qed.

(* ---- where the cache is wrong ---- *)
Definition specs (h : R) : args :=
  mkargs (fun k => match k with f_P => Some 100000 | f_H_mass => Some h | _ => None end)
         (fun k => match k with f_zs => Some [Some 1] | _ => None end) false.
(* a flasher that can tell two enthalpies apart *)
Definition tell (x y z : nat) : flasher := mkflasher [18] [1 / 50000] 288 101325
  (fun a => match fsc a f_H_mass with Some h => if Rltb h 1 then Ok x else Ok y | None => Ok z end) (fun _ => 1) (fun _ => 0) (fun _ _ => Err).

Lemma spec_ok h : composition_specified (specs h) = true /\ state_specified (specs h) = true.
Proof. split; [|reflexivity]. unfold composition_specified; simpl. rewrite Reqb_false by lra. reflexivity. Qed.

(* H_mass is not part of the key: read, assign another H_mass, read again, and the old result comes back *)
Theorem C30_H_mass_refuted : exists F o acts, never_read o /\ fl o = Some F /\ (forall G, ~ In (SetFlasher G) acts) /\
  fst (flash_state (history acts o)) <> fst (flash_state (fresh (history acts o))).
Proof.
  exists (tell 1 2 3), (mkobj (specs 0) (Some (tell 1 2 3)) None None), [Read; Do (Set_ f_H_mass (Some 5))].
  splits; try reflexivity; [intros G; simpl; intuition discriminate|].
  assert (E1 : snd (flash_state (mkobj (specs 0) (Some (tell 1 2 3)) None None)) =
    mkobj (specs 0) (Some (tell 1 2 3)) None (Some (flash_key (mkobj (specs 0) (Some (tell 1 2 3)) None None)
      (mkfspec (fun k => match k with f_H => None | f_H_reactive => None | f_energy | f_energy_reactive | f_n | f_m | f_Q | f_Ql | f_Qg => None | k => sc (specs 0) k end) [1]), 1%nat))).
  { unfold flash_state. cbn [spec]. destruct (spec_ok 0) as [-> ->]. cbn [andb]. 
    change (flash_args _) with (@Ok fspec (mkfspec (fun k => match k with f_H => None | f_H_reactive => None | f_energy | f_energy_reactive | f_n | f_m | f_Q | f_Ql | f_Qg => None | k => sc (specs 0) k end) [1])).
    cbn [cache fl tell flash fsc specs sc]. rewrite Rltb_true by lra. reflexivity. }
  unfold history. cbn [fold_left step]. rewrite E1. cbn [step spec fl Q_TP cache].
  set (s5 := after (exec (Set_ f_H_mass (Some 5)) (specs 0))).
  assert (S5 : s5 = put (specs 0) f_H_mass (Some 5)) by reflexivity.
  assert (C5 : composition_specified s5 = true /\ state_specified s5 = true).
  { rewrite S5. split; [|reflexivity]. unfold composition_specified; simpl. rewrite Reqb_false by lra. reflexivity. }
  set (arg := mkfspec (fun k => match k with f_H => None | f_H_reactive => None | f_energy | f_energy_reactive | f_n | f_m | f_Q | f_Ql | f_Qg => None | k => sc s5 k end) [1]).
  assert (R1 : forall c, flash_args (mkobj s5 (Some (tell 1 2 3)) None c) = Ok arg) by (intros c; reflexivity).
  unfold flash_state, fresh. cbn [spec cache fl Q_TP]. rewrite !R1. destruct C5 as [-> ->]. cbn [andb].
  assert (R2 : flash (tell 1 2 3) arg = Ok 2%nat).
  { unfold tell, arg; cbn [flash fsc]. rewrite S5. cbn [put sc]. simpl. rewrite Rltb_false by lra. reflexivity. }
  rewrite R2.
  cbv zeta. match goal with |- context [if ?b then _ else _] => assert (B : b = true) end.
  { unfold key_eqb. apply andb_true_iff. split.
    - apply forallb_forall. intros k _. destruct k; simpl; auto; rewrite Reqb_true; auto.
    - simpl. rewrite Reqb_true; auto. }
  rewrite B. simpl. intros Q. inversion Q.
Qed.
(* nor is the flasher: after replacing it the old flasher's result comes back *)
Theorem C30_flasher_refuted : exists o acts, never_read o /\ (forall c, ~ In (Do c) acts) /\
  fst (flash_state (history acts o)) <> fst (flash_state (fresh (history acts o))).
Proof.
  exists (mkobj (specs 0) (Some (tell 1 1 1)) None None), [Read; SetFlasher (Some (tell 2 2 2))].
  splits; try reflexivity; [intros c; simpl; intuition discriminate|].
  set (arg := mkfspec (fun k => match k with f_H => None | f_H_reactive => None | f_energy | f_energy_reactive | f_n | f_m | f_Q | f_Ql | f_Qg => None | k => sc (specs 0) k end) [1]).
  assert (R1 : forall F c, flash_args (mkobj (specs 0) F None c) = Ok arg) by (intros F c; reflexivity).
  assert (R2 : forall x, flash (tell x x x) arg = Ok x).
  { intros x. unfold tell; cbn [flash]. destruct (fsc arg f_H_mass); auto. destruct (Rltb _ _); reflexivity. }
  destruct (spec_ok 0) as [S1 S2].
  set (o0 := mkobj (specs 0) (Some (tell 1 1 1)) None None).
  assert (E1 : snd (flash_state o0) = mkobj (specs 0) (Some (tell 1 1 1)) None (Some (flash_key o0 arg, 1%nat))).
  { unfold flash_state, o0. cbn [spec]. rewrite S1, S2. cbn [andb cache fl]. rewrite R1, R2. reflexivity. }
  unfold history. cbn [fold_left step]. rewrite E1. cbn [step spec fl Q_TP cache].
  unfold flash_state, fresh. cbn [spec cache fl Q_TP]. rewrite !R1, S1, S2. cbn [andb]. rewrite R2.
  cbv zeta. match goal with |- context [if ?b then _ else _] => assert (B : b = true) end.
  { unfold key_eqb. apply andb_true_iff. split.
    - apply forallb_forall. intros k _. destruct k; simpl; auto; rewrite Reqb_true; auto.
    - simpl. rewrite Reqb_true; auto. }
  rewrite B. simpl. intros Q. inversion Q.
Qed.
(* an energy with a volumetric flow Q and no Q_TP asks for its own flash without end (RecursionError) *)
Theorem C30_energy_Q_refuted : exists s, composition_specified s = true /\ state_specified s = true /\ flow_specified s = true /\
  forall F, fst (flash_state (mkobj s F None None)) = Err.
Proof.
  exists (mkargs (fun k => match k with f_P => Some 100000 | f_energy => Some 5 | f_Q => Some 1 | _ => None end)
         (fun k => match k with f_zs => Some [Some 1] | _ => None end) false).
  splits; try reflexivity.
  - unfold composition_specified; simpl. rewrite Reqb_false by lra. reflexivity.
  - intros F. unfold flash_state. destruct (_ && _)%bool eqn:B; [reflexivity|]. exfalso.
    unfold composition_specified in B; simpl in B. rewrite Reqb_false in B by lra. discriminate.
Qed.

(* concrete case for the positive theorem: T, P; read; change T; read *)
Example C30_hypotheses_met :
  let s := mkargs (fun k => match k with f_P => Some 100000 | f_T => Some 300 | _ => None end)
         (fun k => match k with f_zs => Some [Some 1] | _ => None end) false in
  let o := mkobj s (Some (tell 1 2 3)) None None in
  let acts := [Read; Do (Set_ f_T (Some 400)); Read] in
  never_read o /\ sc (spec o) f_H_mass = None /\ (forall G, ~ In (SetFlasher G) acts) /\
  (forall x, ~ In (Do (Set_ f_H_mass (Some x))) acts) /\ sc (spec (history [Do (Set_ f_T (Some 400))] o)) f_T = Some 400.
Proof. intros s o acts. splits; try reflexivity; unfold acts; simpl; intros; intuition discriminate. Qed.
