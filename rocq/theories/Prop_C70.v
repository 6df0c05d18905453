(* C70: which root of the equation of state a CEOSGas or CEOSLiquid phase answers from. *)
From Coq Require Import Reals List Bool String Lra Lia.
From Verif Require Import Base BaseFacts Model_roots Prop_C11 Gen_ceos Model_ceos.
Open Scope R_scope.
Import ListNotations.

(* ================= the methods *)
(* ---- specification: the property of the equation of state each method stands for. Most have the name of the method. *)
Definition property_of (m : string) : string :=
  if String.eqb m "lnphis" then "fugacity_coefficients"
  else if String.eqb m "dS_dep_dP_T" then "dS_dep_dP"
  else if String.eqb m "dH_dep_dP_T" then "dH_dep_dP"
  else if String.eqb m "d2H_dTdP" then "d2H_dep_dTdP" (* the ideal gas part does not depend on pressure *)
  else m.
(* an answer from one side: the value of the property there *)
Definition own (gas : bool) (s : eos_state) : option R := if gas then V_g s else V_l s.

Definition src_key (b : source) : option (string * bool) :=
  match b with
  | Attr n => parse n
  | CallZ m z => match z_side z with Some sd => Some (m, sd) | None => None end
  | CallPhase m p => match phase_side p with Some sd => Some (m, sd) | None => None end
  end.
Definition good_row (gas : bool) (r : string * body) : bool :=
  let '(m, Try a b bare) := r in
  match src_key a, src_key b with
  | Some (k, sd), Some (k', sd') => String.eqb k (property_of m) && String.eqb k' (property_of m) && Bool.eqb sd gas && Bool.eqb sd' (negb gas)
  | _, _ => false
  end.
Lemma rows_good gas : forallb (good_row gas) (methods gas) = true.
Proof. destruct gas; vm_compute; reflexivity. Qed.
Lemma read_key A (val : string -> R -> outcome A) src s k sd : src_key src = Some (k, sd) ->
  read A val src s = match own sd s with Some V => val k V | None => AttributeError end.
Proof.
  destruct src; cbn; intros H.
  - rewrite H. reflexivity.
  - destruct (z_side z); inversion H; subst. reflexivity.
  - destruct (phase_side phase); inversion H; subst. reflexivity.
Qed.
Lemma row_exec A (val : string -> R -> outcome A) gas m b s : In (m, b) (methods gas) ->
  exists bare, exec A val b s = match (match own gas s with Some V => val (property_of m) V | None => AttributeError end) with
    | Ok a => Ok a
    | AttributeError => match own (negb gas) s with Some V => val (property_of m) V | None => AttributeError end
    | OtherError => if (bare : bool) then match own (negb gas) s with Some V => val (property_of m) V | None => AttributeError end else OtherError
    end.
Proof.
  intros HI. pose proof (proj1 (forallb_forall _ _) (rows_good gas) _ HI) as HG. destruct b as [x y bare]. cbn in HG.
  destruct (src_key x) as [[k sd]|] eqn:Ex; [|discriminate]. destruct (src_key y) as [[k' sd']|] eqn:Ey; [|discriminate].
  apply andb_true_iff in HG. destruct HG as [HG H4]. apply andb_true_iff in HG. destruct HG as [HG H3]. apply andb_true_iff in HG. destruct HG as [H1 H2].
  apply String.eqb_eq in H1, H2. apply eqb_prop in H3, H4. subst. exists bare. cbn. rewrite (read_key _ _ _ _ _ _ Ex), (read_key _ _ _ _ _ _ Ey). reflexivity.
Qed.

(* Every method of a gas phase gives the property at the gas root when that root was solved for and at the liquid root otherwise; for a
   liquid phase the roles are exchanged. So all methods of one phase answer from the same root. *)
Theorem C70_methods A (val : string -> R -> outcome A) gas m b s v a : In (m, b) (methods gas) ->
  (own gas s = Some v \/ (own gas s = None /\ own (negb gas) s = Some v)) -> val (property_of m) v = Ok a -> exec A val b s = Ok a.
Proof.
  intros HI HR HV. destruct (row_exec A val gas m b s HI) as [bare ->]. destruct HR as [->|[-> ->]]; rewrite HV; reflexivity.
Qed.
(* without any root every method raises AttributeError *)
Theorem C70_methods_no_root A (val : string -> R -> outcome A) gas m b s : In (m, b) (methods gas) -> V_l s = None -> V_g s = None ->
  exec A val b s = AttributeError.
Proof.
  intros HI HL HG. destruct (row_exec A val gas m b s HI) as [bare ->]. assert (own gas s = None /\ own (negb gas) s = None) as [-> ->]; auto. destruct gas; auto.
Qed.
(* the two classes have the same methods under the same names, and the other names are the same *)
Theorem C70_same_interface : map fst (methods true) = map fst (methods false) /\ CEOSGas_aliases = CEOSLiquid_aliases /\
  NoDup (map fst (methods true)) /\ (forall n m, In (n, m) CEOSGas_aliases -> In m (map fst (methods true))).
Proof.
  splits.
  - reflexivity. - reflexivity.
  - assert (D : forall l : list string, (fix f (l : list string) := match l with [] => true | x :: l => negb (existsb (String.eqb x) l) && f l end) l = true -> NoDup l).
    { induction l as [|x l IH]; intros H; constructor; apply andb_true_iff in H; destruct H as [H1 H2]; auto.
      intros HI. apply negb_true_iff in H1. assert (existsb (String.eqb x) l = true); [|congruence]. apply existsb_exists. exists x. split; auto. apply String.eqb_refl. }
    apply D. vm_compute. reflexivity.
  - intros n m H. assert (F : forallb (fun p => existsb (String.eqb (snd p)) (map fst (methods true))) CEOSGas_aliases = true) by (vm_compute; reflexivity).
    pose proof (proj1 (forallb_forall _ _) F _ H) as E. cbn [snd] in E. apply existsb_exists in E. destruct E as [x [E1 E2]]. apply String.eqb_eq in E2. subst. auto.
Qed.
(* Five methods have a bare handler: when the calculation at the root of the class fails for any reason, the value at the other root is
   returned without a warning. For the other methods such a failure is raised. *)
Definition silent : list string := ["dlnphis_dT"; "dlnphis_dP"; "dlnphis_dns"; "dlnphis_dzs"; "dH_dep_dT_V"]%string.
Theorem C70_failures A (val : string -> R -> outcome A) gas m b s v : In (m, b) (methods gas) -> own gas s = Some v ->
  val (property_of m) v = OtherError ->
  exec A val b s = if existsb (String.eqb m) silent then match own (negb gas) s with Some V => val (property_of m) V | None => AttributeError end else OtherError.
Proof.
  intros HI Ho Hv.
  assert (E : exists bare, bare = existsb (String.eqb m) silent /\ exists x y, b = Try x y bare).
  { assert (F : forallb (fun r => match r with (m, Try _ _ bare) => Bool.eqb bare (existsb (String.eqb m) silent) end) (methods gas) = true) by (destruct gas; vm_compute; reflexivity).
    pose proof (proj1 (forallb_forall _ _) F _ HI) as E. destruct b as [x y bare]. cbn beta iota in E. apply eqb_prop in E. exists bare. split; [auto|]. exists x, y. auto. }
  destruct E as [bare [Eb [x [y ->]]]]. rewrite <- Eb.
  pose proof (proj1 (forallb_forall _ _) (rows_good gas) _ HI) as HG. cbn in HG.
  destruct (src_key x) as [[k sd]|] eqn:Ex; [|discriminate]. destruct (src_key y) as [[k' sd']|] eqn:Ey; [|discriminate].
  apply andb_true_iff in HG. destruct HG as [HG H4]. apply andb_true_iff in HG. destruct HG as [HG H3]. apply andb_true_iff in HG. destruct HG as [H1 H2].
  apply String.eqb_eq in H1, H2. apply eqb_prop in H3, H4. subst. cbn. rewrite (read_key _ _ _ _ _ _ Ex), (read_key _ _ _ _ _ _ Ey), Ho, Hv.
  reflexivity.
Qed.
Theorem C70_silent_fallback_refuted : exists (val : string -> R -> outcome R) m b s, In (m, b) (methods true) /\ V_g s = Some 2 /\ V_l s = Some 1 /\
  val (property_of m) 2 = OtherError /\ val (property_of m) 1 = Ok 7 /\ exec R val b s = Ok 7.
Proof.
  exists (fun k v => if Reqb v 1 then Ok 7 else OtherError), "dlnphis_dT"%string, (Try (CallPhase "dlnphis_dT" "g") (CallPhase "dlnphis_dT" "l") true), (mk (Some 1) (Some 2) (Some LiqGas)).
  splits; try reflexivity.
  - cbn. auto.
  - rewrite Reqb_false by lra. reflexivity.
  - rewrite Reqb_true by lra. reflexivity.
  - cbn. rewrite Reqb_false by lra. rewrite Reqb_true by lra. reflexivity.
Qed.
Example C70_methods_hypotheses_met : In ("dH_dep_dV_P"%string, Try (Attr "dH_dep_dV_g_P") (Attr "dH_dep_dV_l_P") false) (methods true) /\
  In ("dH_dep_dV_P"%string, Try (Attr "dH_dep_dV_l_P") (Attr "dH_dep_dV_g_P") false) (methods false) /\
  exec R (fun k v => if String.eqb k "dH_dep_dV_P" then Ok (2 * v) else OtherError) (Try (Attr "dH_dep_dV_g_P") (Attr "dH_dep_dV_l_P") false) (mk (Some 1) (Some 3) (Some LiqGas)) = Ok (2 * 3) /\
  exec R (fun k v => if String.eqb k "dH_dep_dV_P" then Ok (2 * v) else OtherError) (Try (Attr "dH_dep_dV_g_P") (Attr "dH_dep_dV_l_P") false) (mk (Some 1) None (Some Liq)) = Ok (2 * 1).
Proof. splits; try reflexivity; vm_compute; tauto. Qed.

(* ================= phases and their equation of state objects *)
Lemma nth_set_same A (l : list A) n x y : nth_error l n = Some y -> nth_error (set_nth l n x) n = Some x.
Proof. revert n. induction l as [|z l IH]; intros [|n]; cbn; intros H; try discriminate; auto. Qed.
Lemma nth_set_other A (l : list A) n m x : n <> m -> nth_error (set_nth l n x) m = nth_error l m.
Proof. revert n m. induction l as [|z l IH]; intros [|n] [|m]; cbn; intros H; auto; try congruence. Qed.
Lemma nth_app_old A (l : list A) x n y : nth_error l n = Some y -> nth_error (l ++ [x]) n = Some y.
Proof. intros H. rewrite nth_error_app1; auto. apply nth_error_Some. congruence. Qed.
Lemma nth_app_new A (l : list A) x : nth_error (l ++ [x]) (List.length l) = Some x.
Proof. rewrite nth_error_app2 by lia. rewrite Nat.sub_diag. reflexivity. Qed.
Lemma nth_app_inv A (l : list A) x n y : nth_error (l ++ [x]) n = Some y -> nth_error l n = Some y \/ (n = List.length l /\ y = x).
Proof.
  intros H. destruct (lt_dec n (List.length l)) as [L|L]. { left. rewrite nth_error_app1 in H; auto. }
  right. rewrite nth_error_app2 in H by lia. destruct (n - List.length l)%nat as [|k] eqn:E; cbn in H. { inversion H. split; [lia|auto]. } destruct k; discriminate.
Qed.

(* ---- specification: the root of a class of phase among the admissible roots *)
Definition extreme (g : bool) (A : R -> Prop) (v : R) : Prop := if g then greatest A v else least A v.

Section Worlds.
Variables (pip : R -> R -> list R -> R -> R) (crit : R -> R -> list R -> bool) (cov : list R -> R)
  (roots : R -> R -> list R -> list (R * R)) (Peos : R -> R -> list R -> R) (Tsolve : bool -> R -> R -> list R -> option R)
  (Gdep : R -> R -> list R -> R -> R).
(* covolumes are not negative and the roots are in floating point range *)
Hypothesis cov_nonneg : forall zs, 0 <= cov zs.
Hypothesis roots_range : forall T P zs, in_range (cov zs) (roots T P zs).
Notation step := (step pip crit cov roots Peos Tsolve Gdep).
Notation run := (run pip crit cov roots Peos Tsolve Gdep).
Notation eos_TP := (eos_TP pip crit cov roots).
Notation eos_V := (eos_V pip crit cov).
Notation solve_missing := (solve_missing pip crit cov).
Notation resolve1 := (resolve1 pip crit cov).

Definition shape (s : eos_state) (mn mx : R) : Prop :=
  (V_l s = None \/ V_l s = Some mn) /\ (V_g s = None \/ V_g s = Some mx) /\ (V_l s <> None \/ V_g s <> None) /\
  ((ph s = Some LiqGas /\ (mn = mx -> V_l s <> None /\ V_g s <> None)) \/
   (mn = mx /\ ((ph s = Some Liq /\ V_l s = Some mn /\ V_g s = None) \/ (ph s = Some Gas /\ V_l s = None /\ V_g s = Some mx)))).
Definition lab_ok (e : eos) (mn mx : R) : Prop :=
  match ph (est e) with
  | Some Liq => 1 + 1 / 100000000000000 < pip (cT e) (cP e) (czs e) mn /\ crit (cT e) (cP e) (czs e) = false
  | Some Gas => ~ 1 + 1 / 100000000000000 < pip (cT e) (cP e) (czs e) mn /\ crit (cT e) (cP e) (czs e) = false
  | Some LiqGas => mn = mx -> crit (cT e) (cP e) (czs e) = true
  | None => False
  end.
Definition eos_ok (e : eos) : Prop := exists mn mx, shape (est e) mn mx /\ lab_ok e mn mx /\
  match eraw e with
  | Some r => r = roots (cT e) (cP e) (czs e) /\ least (has (cov (czs e)) r) mn /\ greatest (has (cov (czs e)) r) mx
  | None => mn = mx
  end.
Definition phase_ok (g : bool) (e : eos) : Prop := ph (est e) = Some LiqGas -> vol g (est e) <> None.

Lemma root_of_shape g s mn mx : shape s mn mx -> (ph s = Some LiqGas -> vol g s <> None) -> root g s = Some (if g then mx else mn).
Proof.
  intros (HL & HG & HN & HP) HO. unfold root, vol in *. destruct HP as [[HP HE]|[HE [(HP & H1 & H2)|(HP & H1 & H2)]]].
  - specialize (HO HP). destruct g.
    + destruct HG as [HG|HG]; [congruence|]. rewrite HG. reflexivity.
    + destruct HL as [HL|HL]; [congruence|]. rewrite HL. reflexivity.
  - destruct g; cbn [negb]; rewrite ?H1, ?H2; congruence.
  - destruct g; cbn [negb]; rewrite ?H1, ?H2; congruence.
Qed.

(* the extreme roots exist as soon as there is one *)
Lemma bounds T P zs : (forall v, ~ has (cov zs) (roots T P zs) v) \/
  exists mn mx, least (has (cov zs) (roots T P zs)) mn /\ greatest (has (cov zs) (roots T P zs)) mx.
Proof.
  pose proof (scan_spec _ _ (roots_range T P zs)) as HS. destruct (scan (cov zs) (roots T P zs)) as [[c mn] mx]. destruct HS as [H0 [H1 _]].
  destruct c as [|c]. { left. apply H0; auto. } right. exists mn, mx. destruct (H1 ltac:(lia)) as (A & B & _). auto.
Qed.
Lemma set_two T P zs ol og s mn mx : least (has (cov zs) (roots T P zs)) mn -> greatest (has (cov zs) (roots T P zs)) mx -> mn <> mx ->
  set_from_PT (pip T P zs) (crit T P zs) (cov zs) (roots T P zs) ol og s = Some (mk (if og then V_l s else Some mn) (if ol then V_g s else Some mx) (Some LiqGas)).
Proof.
  intros L G N. destruct (C11_two (pip T P zs) (crit T P zs) _ _ ol og s mn mx (roots_range T P zs) (proj1 L) (proj1 G) N) as (m & M & L' & G' & _ & E).
  rewrite (least_unique _ _ _ L L'), (greatest_unique _ _ _ G G'). exact E.
Qed.
Lemma eos_TP_ok T P zs ol og e : (ol && og)%bool = false -> eos_TP T P zs ol og = Some e ->
  eos_ok e /\ cT e = T /\ cP e = P /\ czs e = zs /\ eraw e = Some (roots T P zs) /\
  (ol = false -> phase_ok true e) /\ (og = false -> phase_ok false e).
Proof.
  intros HB. unfold Model_ceos.eos_TP. destruct (bounds T P zs) as [N|(mn & mx & L & G)].
  { pose proof (proj2 (C11_raises (pip T P zs) (crit T P zs) _ _ ol og fresh (roots_range T P zs)) N) as ->. discriminate. }
  destruct (Req_dec mn mx) as [E|E].
  - subst mx.
    assert (U : forall w, has (cov zs) (roots T P zs) w -> w = mn). { intros w Hw. apply Rle_antisym; [apply (proj2 G)|apply (proj2 L)]; auto. }
    pose proof (C11_single (pip T P zs) _ _ ol og fresh mn (roots_range T P zs) (proj1 L) U) as [S1 S2].
    destruct (crit T P zs) eqn:Ecr.
    + rewrite S2. intros H. inversion H; subst e; clear H. cbn. splits; auto.
      * exists mn, mn. cbn. splits; auto. unfold shape; cbn. intuition congruence.
      * intros _ _. cbn. congruence. * intros _ _. cbn. congruence.
    + rewrite S1. destruct (Rlt_dec _ _) as [Q|Q]; intros H; inversion H; subst e; clear H; cbn; splits; auto.
      * exists mn, mn. cbn. splits; auto. unfold shape; cbn. intuition congruence.
      * intros _ H; cbn in H; congruence. * intros _ H; cbn in H; congruence.
      * exists mn, mn. cbn. splits; auto. unfold shape; cbn. intuition congruence.
      * intros _ H; cbn in H; congruence. * intros _ H; cbn in H; congruence.
  - rewrite (set_two T P zs ol og fresh mn mx L G E). intros H; inversion H; subst e; clear H; cbn; splits; auto.
    + exists mn, mx. cbn. splits; auto. unfold shape; cbn. destruct ol, og; try discriminate; intuition congruence.
    + intros -> _; cbn; congruence. + intros -> _; cbn; congruence.
Qed.
Lemma eos_TP_raises T P zs ol og : eos_TP T P zs ol og = None <-> forall v, ~ has (cov zs) (roots T P zs) v.
Proof.
  rewrite <- (C11_raises (pip T P zs) (crit T P zs) _ _ ol og fresh (roots_range T P zs)). unfold Model_ceos.eos_TP. destruct (set_from_PT _ _ _ _ _ _ _); split; congruence.
Qed.
(* a specified volume *)
Lemma eos_V_spec T P V zs : match eos_V T P V zs with
  | Some e => cov zs < V /\ shape (est e) V V /\ lab_ok e V V /\ cT e = T /\ cP e = P /\ czs e = zs /\ eraw e = None
  | None => V <= cov zs end.
Proof.
  pose proof (cov_nonneg zs) as Hc. pose proof huge_pos as Hh. unfold Model_ceos.eos_V, solve_with_V, set_from_PT, scan. cbn [fold_left]. unfold scan_step at 3.
  rewrite (Reqb_true 0 0) by auto. rewrite orb_true_r. cbn [orb].
  assert (Z : forall st, scan_step (cov zs) st (0, 1) = st).
  { intros [[c a] d]. unfold scan_step. rewrite (Reqb_true 0 0) by auto. cbn [orb]. unfold Rleb. destruct (Rle_dec 0 (cov zs)); [auto|lra]. }
  rewrite !Z. unfold Rleb at 1. destruct (Rle_dec V (cov zs)) as [Q|Q].
  - cbn [Nat.eqb orb Nat.ltb Nat.leb]. rewrite (Reqb_false huge (- huge)) by lra. exact Q.
  - cbn [Nat.eqb orb]. assert (EV : (if negb (Reqb (if Rltb V huge then V else huge) huge) then (if Rltb V huge then V else huge) else (if Rltb (- huge) V then V else - huge)) = V).
    { unfold Rltb. destruct (Rlt_dec V huge). { rewrite (Reqb_false V huge) by lra. reflexivity. } rewrite (Reqb_true huge huge) by auto. cbn. destruct (Rlt_dec (- huge) V); lra. }
    rewrite EV. unfold set_properties. cbn [orb negb andb].
    unfold Rltb at 1. destruct (Rlt_dec _ (pip T P zs V)) as [Q2|Q2]; destruct (crit T P zs) eqn:Ecr; cbn; splits; auto; try lra; try (unfold shape; cbn; intuition congruence); unfold lab_ok; cbn; auto; intros; lra.
Qed.

(* ---- completing an equation of state object *)
Definition upgrade (e e' : eos) : Prop := cT e' = cT e /\ cP e' = cP e /\ czs e' = czs e /\ eraw e' = eraw e /\ ph (est e') = ph (est e) /\
  (forall v, V_l (est e) = Some v -> V_l (est e') = Some v) /\ (forall v, V_g (est e) = Some v -> V_g (est e') = Some v) /\
  (ph (est e) <> Some LiqGas -> e' = e) /\ (V_l (est e) <> None -> V_g (est e) <> None -> e' = e).
Lemma upgrade_refl e : upgrade e e.
Proof. unfold upgrade. splits; auto. Qed.
Lemma solve_missing_ok e : eos_ok e -> exists e', solve_missing e = Some e' /\ eos_ok e' /\ upgrade e e' /\ phase_ok true e' /\ phase_ok false e'.
Proof.
  intros HE. assert (HE' := HE). destruct HE as (mn & mx & (HL & HG & HN & HP) & HLb & HR). unfold Model_ceos.solve_missing.
  destruct HP as [[HP HE2]|[HE2 HP]].
  2:{ exists e. assert (E : ph (est e) <> Some LiqGas) by (destruct HP as [(-> & _)|(-> & _)]; congruence).
      split. { destruct HP as [(-> & _)|(-> & _)]; reflexivity. } splits; auto. apply upgrade_refl. intros Q; contradiction. intros Q; contradiction. }
  rewrite HP. destruct HL as [HL|HL].
  - rewrite HL. destruct HG as [HG|HG]. { destruct HN; congruence. }
    assert (ND : mn <> mx). { intros Q. destruct (HE2 Q). congruence. }
    destruct (eraw e) as [r|] eqn:ER; [|contradiction]. destruct HR as (-> & L & G). unfold Model_ceos.resolve1. rewrite ER.
    rewrite (set_two _ _ _ true false (est e) mn mx L G ND). cbn. rewrite HG. eexists. split; [reflexivity|]. cbn. rewrite ?ER.
    splits.
    + exists mn, mx. cbn. splits; auto. unfold shape; cbn. rewrite ?HG, ?HL. intuition congruence.
    + unfold upgrade; cbn; splits; auto; try (intros; congruence).
    + intros _; cbn; congruence. + intros _; cbn; congruence.
  - rewrite HL. destruct HG as [HG|HG].
    + rewrite HG. assert (ND : mn <> mx). { intros Q. destruct (HE2 Q). congruence. }
      destruct (eraw e) as [r|] eqn:ER; [|contradiction]. destruct HR as (-> & L & G). unfold Model_ceos.resolve1. rewrite ER.
      rewrite (set_two _ _ _ false true (est e) mn mx L G ND). cbn. rewrite HL. eexists. split; [reflexivity|]. cbn. rewrite ?ER.
      splits.
      * exists mn, mx. cbn. splits; auto. unfold shape; cbn. rewrite ?HG, ?HL. intuition congruence.
      * unfold upgrade; cbn; splits; auto; try (intros; congruence).
      * intros _; cbn; congruence. * intros _; cbn; congruence.
    + rewrite HG. exists e. splits; auto. apply upgrade_refl. intros _; cbn; congruence. intros _; cbn; congruence.
Qed.
Lemma upgrade_root g e e' : eos_ok e -> phase_ok g e -> eos_ok e' -> upgrade e e' -> root g (est e') = root g (est e) /\ phase_ok g e'.
Proof.
  intros HE HP HE' HU. destruct HU as (_ & _ & _ & _ & Hp & Hl & Hg & Hs & _).
  destruct (ph (est e)) as [[| |]|] eqn:Ep; try (assert (e' = e) by (apply Hs; congruence); subst; split; auto).
  unfold phase_ok in *. specialize (HP Ep). unfold root, vol in *. destruct g.
  - destruct (V_g (est e)) as [v|] eqn:EV; [|congruence]. rewrite (Hg v eq_refl). split; auto; congruence.
  - destruct (V_l (est e)) as [v|] eqn:EV; [|congruence]. rewrite (Hl v eq_refl). split; auto; congruence.
Qed.

(* ---- the invariant of all runs *)
Definition Inv (w : world) : Prop :=
  (forall l e, nth_error (heap w) l = Some e -> eos_ok e) /\
  (forall k p l, nth_error (objs w) k = Some p -> eref p = Some l -> exists e, nth_error (heap w) l = Some e /\ phase_ok (gas p) e).
Definition ext (w w' : world) : Prop :=
  (forall l e, nth_error (heap w) l = Some e -> exists e', nth_error (heap w') l = Some e' /\ upgrade e e') /\
  (forall k p, nth_error (objs w) k = Some p -> exists p', nth_error (objs w') k = Some p' /\ gas p' = gas p /\ eref p' = eref p /\
     oT p' = oT p /\ oP p' = oP p /\ ozs p' = ozs p /\
     (low p' = low p \/ (low p = None /\ exists l e, eref p = Some l /\ nth_error (heap w) l = Some e /\ low p' = lowest Gdep e))).
Lemma ext_refl w : ext w w.
Proof. split. { intros l e H. exists e. split; auto. apply upgrade_refl. } intros k p H. exists p. splits; auto. Qed.
Lemma inv_empty : Inv empty.
Proof. split. { intros [|l] e H; discriminate. } intros [|k] p l H; discriminate. Qed.

Lemma add_inv w e p l : Inv w -> eos_ok e -> phase_ok (gas p) e -> eref p = Some l -> l = List.length (heap w) ->
  Inv (fst (add w e p)) /\ ext w (fst (add w e p)).
Proof.
  intros [I1 I2] HE HP HR Hl. subst l. cbn. split; split.
  - intros l e' H. apply nth_app_inv in H. destruct H as [H|[_ ->]]; eauto.
  - intros k q l H Hq. apply nth_app_inv in H. destruct H as [H|[_ ->]].
    + destruct (I2 k q l H Hq) as (e' & A & B). exists e'. split; auto. apply nth_app_old; auto.
    + rewrite HR in Hq. inversion Hq; subst l. exists e. split; auto. apply nth_app_new.
  - intros l e' H. exists e'. split; [apply nth_app_old; auto|apply upgrade_refl].
  - intros k q H. exists q. splits; auto. apply nth_app_old; auto.
Qed.
Lemma add_o_inv w p : Inv w -> match eref p with Some l => exists e, nth_error (heap w) l = Some e /\ phase_ok (gas p) e | None => True end ->
  Inv (fst (add_o w p)) /\ ext w (fst (add_o w p)).
Proof.
  intros [I1 I2] HP. cbn. split; split; cbn; auto.
  - intros k q l H Hq. apply nth_app_inv in H. destruct H as [H|[_ ->]]; eauto. rewrite Hq in HP. auto.
  - intros l e' H. exists e'. split; auto. apply upgrade_refl.
  - intros k q H. exists q. splits; auto. apply nth_app_old; auto.
Qed.
Lemma heap_inv w l e e' : Inv w -> nth_error (heap w) l = Some e -> eos_ok e' -> upgrade e e' ->
  Inv (mkW (set_nth (heap w) l e') (objs w)) /\ ext w (mkW (set_nth (heap w) l e') (objs w)).
Proof.
  intros [I1 I2] HE HE' HU. split; split; cbn.
  - intros m x H. destruct (Nat.eq_dec l m) as [->|N]. { rewrite (nth_set_same _ _ _ _ _ HE) in H. inversion H; subst; auto. }
    rewrite nth_set_other in H by auto. eauto.
  - intros k p m H Hm. destruct (I2 k p m H Hm) as (x & A & B). destruct (Nat.eq_dec l m) as [->|N].
    + rewrite HE in A. inversion A; subst x. exists e'. split; [eapply nth_set_same; eauto|]. apply (upgrade_root _ e e'); auto. eauto.
    + exists x. rewrite nth_set_other by auto. auto.
  - intros m x H. destruct (Nat.eq_dec l m) as [->|N].
    + rewrite HE in H. inversion H; subst x. exists e'. split; auto. eapply nth_set_same; eauto.
    + exists x. rewrite nth_set_other by auto. split; auto. apply upgrade_refl.
  - intros k p H. exists p. splits; auto.
Qed.

(* the phases made from T and P, from T and V, from P and V *)
Lemma eos_from_ok p T P zs e : eos_from pip crit cov roots p T P zs = Some e ->
  eos_ok e /\ cT e = T /\ cP e = P /\ czs e = zs /\ eraw e = Some (roots T P zs) /\ phase_ok (gas p) e.
Proof.
  unfold eos_from. destruct (eref p); intros H.
  - assert (X : (negb (gas p) && gas p)%bool = false) by (destruct (gas p); reflexivity). destruct (eos_TP_ok T P zs _ _ e X H) as (A & B & C & D & E & F & G). splits; auto.
    destruct (gas p); [apply F; auto|apply G; auto].
  - destruct (eos_TP_ok T P zs false false e eq_refl H) as (A & B & C & D & E & F & G). splits; auto.
    destruct (gas p); [apply F; auto|apply G; auto].
Qed.
Lemma eos_V_ok T P V zs e g : eos_V T P V zs = Some e -> eos_ok e /\ phase_ok g e /\ root g (est e) = Some V /\ cT e = T /\ cP e = P /\ czs e = zs /\ cov zs < V.
Proof.
  intros H. pose proof (eos_V_spec T P V zs) as S. rewrite H in S. destruct S as (A & B & B' & C & D & E & F).
  assert (K : phase_ok g e). { destruct B as (_ & _ & _ & [[B1 B2]|[_ [(B1 & _)|(B1 & _)]]]); intros Q; try congruence. destruct (B2 eq_refl). destruct g; auto. }
  splits; auto. { exists V, V. rewrite F. auto. } rewrite (root_of_shape g _ V V B K). destruct g; auto.
Qed.

Lemma step_inv w o : Inv w -> Inv (fst (step w o)) /\ ext w (fst (step w o)).
Proof.
  intros HI. assert (SAME : Inv w /\ ext w w) by (split; [auto|apply ext_refl]). unfold Model_ceos.step. destruct o as [g T P zs|i zs T P V|i T P zs other|i|i|i|i].
  - destruct (eos_TP T P zs false false) as [e|] eqn:E; [|exact SAME]. destruct (eos_TP_ok T P zs false false e eq_refl E) as (A & B & C & D & F & G & H).
    apply (add_inv w e _ (List.length (heap w))); auto. cbn [gas]. destruct g; [apply G; auto|apply H; auto].
  - destruct (nth_error (objs w) i) as [p|] eqn:Ei; [|exact SAME]. cbv zeta. destruct T as [T|], P as [P|], V as [V|]; try exact SAME.
    + destruct (eos_from _ _ _ _ p T P zs) as [e|] eqn:E; [|exact SAME]. destruct (eos_from_ok p T P zs e E) as (A & B & C & D & F & G). apply (add_inv w e _ (List.length (heap w))); auto.
    + destruct (eos_from _ _ _ _ p T P zs) as [e|] eqn:E; [|exact SAME]. destruct (eos_from_ok p T P zs e E) as (A & B & C & D & F & G). apply (add_inv w e _ (List.length (heap w))); auto.
    + unfold eos_TV. destruct (Rleb _ _); [exact SAME|]. destruct (eos_V T (Peos T V zs) V zs) as [e|] eqn:E; [|exact SAME].
      destruct (eos_V_ok _ _ _ _ e (gas p) E) as (A & B & _). apply (add_inv w e _ (List.length (heap w))); auto.
    + apply add_o_inv; cbn; auto.
    + unfold eos_PV. destruct (Tsolve (gas p) P V zs) as [T|]; [|exact SAME]. destruct (eos_V T P V zs) as [e|] eqn:E; [|exact SAME].
      destruct (eos_V_ok _ _ _ _ e (gas p) E) as (A & B & _). apply (add_inv w e _ (List.length (heap w))); auto.
  - destruct (nth_error (objs w) i) as [p|] eqn:Ei; [|exact SAME]. destruct other as [j|].
    + destruct (nth_error (objs w) j) as [q|] eqn:Ej; [|exact SAME]. destruct (eref q) as [l|] eqn:El; [|exact SAME].
      destruct (nth_error (heap w) l) as [e|] eqn:Eh; [|exact SAME]. destruct (solve_missing_ok e (proj1 HI l e Eh)) as (e' & -> & A & B & C & D).
      destruct (heap_inv w l e e' HI Eh A B) as [I1 X1]. destruct (add_o_inv _ (mkO (gas p) (Some l) (Some T) (Some P) zs None) I1) as [I2 X2].
      { cbn. exists e'. split; [eapply nth_set_same; eauto|]. destruct (gas p); auto. }
      split; auto. destruct X1 as [X1 Y1], X2 as [X2 Y2]. split.
      * intros m x H. destruct (X1 m x H) as (x' & H1 & H2). exists x'. split; auto.
      * intros k r H. destruct (Y2 k r H) as (r' & H1 & H2 & H3 & H4 & H5 & H6 & H7). exists r'. splits; auto. left. exact (ltac:(destruct H7 as [H7|[H7 (z & y & _ & _ & H8)]]; auto;
          cbn in H1; pose proof (nth_app_old _ _ (mkO (gas p) (Some l) (Some T) (Some P) zs None) _ _ H) as Q; rewrite Q in H1; inversion H1; subst; auto)).
    + destruct (eos_from _ _ _ _ p T P zs) as [e|] eqn:E; [|exact SAME]. destruct (eos_from_ok p T P zs e E) as (A & B & C & D & F & G). apply (add_inv w e _ (List.length (heap w))); auto.
  - destruct (nth_error (objs w) i) as [p|]; [|exact SAME]. destruct (eref p) as [l|]; [|exact SAME]. destruct (nth_error (heap w) l) as [e|]; [|exact SAME].
    destruct (root _ _); exact SAME.
  - destruct (nth_error (objs w) i) as [p|]; [|exact SAME]. destruct (eref p) as [l|]; [|exact SAME]. destruct (nth_error (heap w) l) as [e|]; [|exact SAME].
    destruct (label _ _); exact SAME.
  - destruct (nth_error (objs w) i) as [p|] eqn:Ei; [|exact SAME]. destruct (eref p) as [l|] eqn:El; [|exact SAME]. destruct (nth_error (heap w) l) as [e|] eqn:Eh; [|exact SAME].
    assert (OKe := proj1 HI l e Eh).
    assert (K : exists e', fst (gmin pip crit cov Gdep e) = Some e' /\ eos_ok e' /\ upgrade e e').
    { unfold gmin. destruct (solve_missing_ok e OKe) as (e' & Q & A & B & _). rewrite Q. destruct (ph (est e)) as [[| |]|]; cbn; [exists e|exists e|exists e'|exists e]; splits; auto using upgrade_refl. }
    destruct K as (e' & K1 & K2 & K3). destruct (gmin pip crit cov Gdep e) as [x y]. cbn in K1. subst x. destruct (heap_inv w l e e' HI Eh K2 K3). destruct y; cbn; auto.
  - destruct (nth_error (objs w) i) as [p|] eqn:Ei; [|exact SAME]. destruct (eref p) as [l|] eqn:El; [|exact SAME]. destruct (nth_error (heap w) l) as [e|] eqn:Eh; [|exact SAME].
    destruct (low p) as [v|] eqn:Elow; [exact SAME|]. destruct (lowest Gdep e) as [v|] eqn:Elo; [|exact SAME]. cbn [fst]. destruct HI as [I1 I2]. split; split; cbn; auto.
    + intros k q m H Hm. destruct (Nat.eq_dec i k) as [->|N].
      * rewrite (nth_set_same _ _ _ _ _ Ei) in H. inversion H; subst q. cbn in *. apply (I2 k p m Ei). congruence.
      * rewrite nth_set_other in H by auto. eauto.
    + intros m x H. exists x. split; auto. apply upgrade_refl.
    + intros k q H. destruct (Nat.eq_dec i k) as [->|N].
      * rewrite Ei in H. inversion H; subst q. eexists. split; [eapply nth_set_same; eauto|]. cbn. splits; auto. right. split; auto. exists l, e. auto.
      * exists q. rewrite nth_set_other by auto. splits; auto.
Qed.
Lemma run_inv ops : forall w, Inv w -> Inv (run w ops).
Proof. induction ops as [|o ops IH]; intros w H; cbn; auto. apply IH. apply (step_inv w o H). Qed.

(* ---- what a phase keeps for the rest of the run *)
Definition holds (g : bool) (k l : nat) (T P : option R) (zs : list R) (e0 : eos) (w : world) : Prop :=
  exists p e, nth_error (objs w) k = Some p /\ gas p = g /\ eref p = Some l /\ oT p = T /\ oP p = P /\ ozs p = zs /\
    nth_error (heap w) l = Some e /\ cT e = cT e0 /\ cP e = cP e0 /\ czs e = czs e0 /\ eraw e = eraw e0 /\ ph (est e) = ph (est e0) /\
    root g (est e) = root g (est e0) /\ eos_ok e /\ phase_ok g e.
Lemma holds_step g k l T P zs e0 w o : Inv w -> holds g k l T P zs e0 w -> holds g k l T P zs e0 (fst (step w o)).
Proof.
  intros HI (p & e & H1 & H2 & H3 & H4 & H5 & H6 & H7 & H8 & H9 & H10 & H11 & H12 & H13 & H14 & H15).
  destruct (step_inv w o HI) as [[I1 I2] [X Y]]. destruct (X l e H7) as (e' & A & B). destruct (Y k p H1) as (p' & C1 & C2 & C3 & C4 & C5 & C6 & _).
  assert (B' := B). destruct B' as (B1 & B2 & B3 & B4 & B5 & _). destruct (upgrade_root g e e' H14 H15 (I1 l e' A) B) as [D1 D2].
  exists p', e'. splits; try congruence; auto. eauto.
Qed.
Lemma holds_run g k l T P zs e0 ops : forall w, Inv w -> holds g k l T P zs e0 w -> holds g k l T P zs e0 (run w ops).
Proof. induction ops as [|o ops IH]; intros w HI H; cbn; auto. apply IH. apply (step_inv w o HI). apply holds_step; auto. Qed.
Lemma holds_now w k p l e : Inv w -> nth_error (objs w) k = Some p -> eref p = Some l -> nth_error (heap w) l = Some e ->
  holds (gas p) k l (oT p) (oP p) (ozs p) e w.
Proof.
  intros [I1 I2] H1 H2 H3. destruct (I2 k p l H1 H2) as (e' & A & B). rewrite H3 in A. inversion A; subst e'. exists p, e. splits; auto. eauto.
Qed.
Lemma holds_prop g k l T P zs e0 w : holds g k l T P zs e0 w -> snd (step w (OProp k)) = match root g (est e0) with Some v => Vol v | None => Raise Attribute_Error end.
Proof.
  intros (p & e & H1 & H2 & H3 & H4 & H5 & H6 & H7 & H8 & H9 & H10 & H11 & H12 & H13 & H14 & H15). cbn. rewrite H1, H3, H7, H2, H13. destruct (root g (est e0)); reflexivity.
Qed.

(* ---- the answers of a phase never change, whatever else is done with it or with phases sharing its equation of state object *)
Theorem C70_stable ops1 ops2 k v : snd (step (run empty ops1) (OProp k)) = Vol v -> snd (step (run (run empty ops1) ops2) (OProp k)) = Vol v.
Proof.
  intros H. pose proof (run_inv ops1 _ inv_empty) as HI. set (w := run empty ops1) in *. clearbody w. cbn in H.
  destruct (nth_error (objs w) k) as [p|] eqn:E1; [|discriminate]. destruct (eref p) as [l|] eqn:E2; [|discriminate].
  destruct (nth_error (heap w) l) as [e|] eqn:E3; [|discriminate]. destruct (root (gas p) (est e)) as [u|] eqn:E4; [|discriminate]. cbn in H.
  rewrite (holds_prop _ _ _ _ _ _ _ _ (holds_run _ _ _ _ _ _ _ ops2 w HI (holds_now w k p l e HI E1 E2 E3))). rewrite E4. exact H.
Qed.

(* ---- phases made from T and P *)
(* the calls which make a phase of a class at T, P and zs: the constructor, to, to_TP_zs, and to_TP_zs with the equation of state object
   of a phase at these conditions which was itself solved from T and P *)
Inductive makes (w : world) : op -> bool -> R -> R -> list R -> Prop :=
| makes_new g T P zs : makes w (ONew g T P zs) g T P zs
| makes_to i p T P V zs : nth_error (objs w) i = Some p -> makes w (OTo i zs (Some T) (Some P) V) (gas p) T P zs
| makes_to_TP i p T P zs : nth_error (objs w) i = Some p -> makes w (OToTP i T P zs None) (gas p) T P zs
| makes_shared i p j q l e r T P zs : nth_error (objs w) i = Some p -> nth_error (objs w) j = Some q -> eref q = Some l -> nth_error (heap w) l = Some e ->
    cT e = T -> cP e = P -> czs e = zs -> eraw e = Some r -> makes w (OToTP i T P zs (Some j)) (gas p) T P zs.
Lemma made w o g T P zs w1 k : Inv w -> makes w o g T P zs -> step w o = (w1, New k) ->
  exists l e p, holds g k l (Some T) (Some P) zs e w1 /\ nth_error (heap w1) l = Some e /\ nth_error (objs w1) k = Some p /\ low p = None /\
    cT e = T /\ cP e = P /\ czs e = zs /\ eraw e = Some (roots T P zs) /\
    (match o with ONew _ _ _ _ | OToTP _ _ _ _ (Some _) => phase_ok true e /\ phase_ok false e | _ => True end).
Proof.
  intros HI HM HS. assert (HI1 : Inv w1). { pose proof (step_inv w o HI) as [Q _]. rewrite HS in Q. exact Q. }
  assert (ADD : forall e, (mkW (heap w ++ [e]) (objs w ++ [mkO g (Some (List.length (heap w))) (Some T) (Some P) zs None]), New (List.length (objs w))) = (w1, New k) ->
    cT e = T -> cP e = P -> czs e = zs -> eraw e = Some (roots T P zs) -> 
    exists l p, holds g k l (Some T) (Some P) zs e w1 /\ nth_error (heap w1) l = Some e /\ nth_error (objs w1) k = Some p /\ low p = None).
  { intros e Q C1 C2 C3 C4. inversion Q; subst w1 k. exists (List.length (heap w)), (mkO g (Some (List.length (heap w))) (Some T) (Some P) zs None).
    cbn [heap objs]. splits; try apply nth_app_new; auto. refine (holds_now _ _ (mkO g (Some (List.length (heap w))) (Some T) (Some P) zs None) _ _ HI1 _ _ _); cbn [heap objs]; try apply nth_app_new; auto. }
  inversion HM; subst; clear HM; cbn [Model_ceos.step] in HS.
  - destruct (eos_TP T P zs false false) as [e|] eqn:E; [|discriminate]. destruct (eos_TP_ok T P zs false false e eq_refl E) as (A & B & C & D & F & G & H).
    destruct (ADD e HS B C D F) as (l & p & K1 & K2 & K3 & K4). exists l, e, p. splits; auto.
  - rewrite H in HS. cbv zeta in HS. destruct (eos_from _ _ _ _ p T P zs) as [e|] eqn:E; [|discriminate]. destruct (eos_from_ok p T P zs e E) as (A & B & C & D & F & G).
    destruct (ADD e HS B C D F) as (l & p' & K1 & K2 & K3 & K4). exists l, e, p'. splits; auto.
  - rewrite H in HS. destruct (eos_from _ _ _ _ p T P zs) as [e|] eqn:E; [|discriminate]. destruct (eos_from_ok p T P zs e E) as (A & B & C & D & F & G).
    destruct (ADD e HS B C D F) as (l & p' & K1 & K2 & K3 & K4). exists l, e, p'. splits; auto.
  - rewrite H, H0, H1, H2 in HS. pose proof (proj1 HI l e H2) as OKe. destruct (solve_missing_ok e OKe) as (e' & E & A & B & C & D). rewrite E in HS.
    unfold add_o in HS. cbn [heap objs] in HS. inversion HS; subst w1 k. exists l, e', (mkO (gas p) (Some l) (Some (cT e)) (Some (cP e)) (czs e) None).
    destruct B as (B1 & B2 & B3 & B4 & _). cbn [heap objs]. pose proof (nth_set_same _ _ _ e' _ H2) as N.
    splits; auto; try apply nth_app_new.
    + refine (holds_now _ _ (mkO (gas p) (Some l) (Some (cT e)) (Some (cP e)) (czs e) None) _ _ HI1 _ _ _); cbn [heap objs]; try apply nth_app_new; auto.
    + destruct OKe as (mn & mx & _ & _ & OKe). rewrite H6 in OKe. rewrite B4, H6. destruct OKe as (-> & _). reflexivity.
Qed.

(* For the rest of the run such a phase answers from the largest admissible root if it is a gas and from the smallest if it is a liquid, and
   has the T, P and zs asked for. *)
Theorem C70_extreme_root ops1 ops2 o g T P zs w1 k : let w := run empty ops1 in makes w o g T P zs -> step w o = (w1, New k) ->
  exists v p, snd (step (run w1 ops2) (OProp k)) = Vol v /\ extreme g (has (cov zs) (roots T P zs)) v /\
    nth_error (objs (run w1 ops2)) k = Some p /\ gas p = g /\ oT p = Some T /\ oP p = Some P /\ ozs p = zs.
Proof.
  intros w HM HS. pose proof (run_inv ops1 _ inv_empty) as HI. fold w in HI. pose proof (step_inv w o HI) as [HI1 _]. rewrite HS in HI1. cbn in HI1.
  destruct (made w o g T P zs w1 k HI HM HS) as (l & e & p & K1 & K2 & K3 & K4 & C1 & C2 & C3 & C4 & _).
  pose proof (holds_run _ _ _ _ _ _ _ ops2 w1 HI1 K1) as K. rewrite (holds_prop _ _ _ _ _ _ _ _ K).
  destruct K as (p' & e' & H1 & H2 & H3 & H4 & H5 & H6 & H7 & H8 & H9 & H10 & H11 & H12 & H13 & H14 & H15).
  destruct H14 as (mn & mx & S & _ & R). rewrite H11, C4, H8, H9, H10, C1, C2, C3 in R. destruct R as (_ & L & G).
  rewrite <- H13, (root_of_shape g _ mn mx S H15). exists (if g then mx else mn), p'. splits; auto. destruct g; auto.
Qed.
(* The phase is made unless there is no admissible root, which raises ValueError and changes nothing. *)
Theorem C70_raises ops o g T P zs : let w := run empty ops in makes w o g T P zs -> (match o with OToTP _ _ _ _ (Some _) => False | _ => True end) ->
  ((forall v, ~ has (cov zs) (roots T P zs) v) -> step w o = (w, Raise ValueError)) /\
  ((exists v, has (cov zs) (roots T P zs) v) -> snd (step w o) = New (List.length (objs w))).
Proof.
  intros w HM HO. clearbody w.
  assert (N : forall p, eos_from pip crit cov roots p T P zs = None <-> forall v, ~ has (cov zs) (roots T P zs) v).
  { intros p. unfold eos_from. destruct (eref p); apply eos_TP_raises. }
  pose proof (eos_TP_raises T P zs false false) as N0.
  inversion HM; subst; try contradiction; cbn [Model_ceos.step]; rewrite ?H; cbv zeta; split; intros Q.
  - rewrite (proj2 N0 Q). reflexivity.
  - destruct (eos_TP T P zs false false); [reflexivity|]. destruct Q as [v Q]. destruct (proj1 N0 eq_refl v Q).
  - rewrite (proj2 (N p) Q). reflexivity.
  - destruct (eos_from _ _ _ _ p T P zs) eqn:E; [reflexivity|]. destruct Q as [v Q]. destruct (proj1 (N p) E v Q).
  - rewrite (proj2 (N p) Q). reflexivity.
  - destruct (eos_from _ _ _ _ p T P zs) eqn:E; [reflexivity|]. destruct Q as [v Q]. destruct (proj1 (N p) E v Q).
Qed.
(* The property phase: with two different admissible roots, or at the critical point of a pure component, the class. With one root the
   phase identification parameter decides. *)
Theorem C70_phase ops1 ops2 o g T P zs w1 k : let w := run empty ops1 in makes w o g T P zs -> step w o = (w1, New k) ->
  exists sd, snd (step (run w1 ops2) (OPhase k)) = IsPhase sd /\
  ((exists u v, u <> v /\ has (cov zs) (roots T P zs) u /\ has (cov zs) (roots T P zs) v) \/ crit T P zs = true -> sd = g) /\
  (forall v, has (cov zs) (roots T P zs) v -> (forall u, has (cov zs) (roots T P zs) u -> u = v) -> crit T P zs = false ->
     (sd = false <-> 1 + 1 / 100000000000000 < pip T P zs v)).
Proof.
  intros w HM HS. pose proof (run_inv ops1 _ inv_empty) as HI. fold w in HI. pose proof (step_inv w o HI) as [HI1 _]. rewrite HS in HI1. cbn in HI1.
  destruct (made w o g T P zs w1 k HI HM HS) as (l & e & p & K1 & K2 & K3 & K4 & C1 & C2 & C3 & C4 & _).
  pose proof (holds_run _ _ _ _ _ _ _ ops2 w1 HI1 K1) as K.
  destruct K as (p' & e' & H1 & H2 & H3 & H4 & H5 & H6 & H7 & H8 & H9 & H10 & H11 & H12 & H13 & H14 & H15).
  destruct H14 as (mn & mx & S & LB & R). rewrite H11, C4, H8, H9, H10, C1, C2, C3 in R. destruct R as (_ & L & G).
  cbn [Model_ceos.step]. rewrite H1, H3, H7, H2. unfold lab_ok in LB. rewrite H8, H9, H10, C1, C2, C3 in LB.
  assert (U : forall v, has (cov zs) (roots T P zs) v -> (forall u, has (cov zs) (roots T P zs) u -> u = v) -> mn = v /\ mx = v).
  { intros v Hv Hu. split; apply Hu; [apply (proj1 L)|apply (proj1 G)]. }
  assert (D : (exists u v, u <> v /\ has (cov zs) (roots T P zs) u /\ has (cov zs) (roots T P zs) v) -> mn <> mx).
  { intros (u & v & N & Hu & Hv) Q. subst mx. apply N. pose proof (proj2 L u Hu). pose proof (proj2 L v Hv). pose proof (proj2 G u Hu). pose proof (proj2 G v Hv). lra. }
  destruct S as (_ & _ & _ & S). unfold label. destruct (ph (est e')) as [[| |]|]; [..|contradiction].
  - destruct LB as [LB LC]. destruct S as [[S _]|[S _]]; [discriminate|]. exists false. splits; auto.
    + intros [Q|Q]; [destruct (D Q S)|congruence].
    + intros v Hv Hu _. destruct (U v Hv Hu) as [-> _]. tauto.
  - destruct LB as [LB LC]. destruct S as [[S _]|[S _]]; [discriminate|]. exists true. splits; auto.
    + intros [Q|Q]; [destruct (D Q S)|congruence].
    + intros v Hv Hu _. destruct (U v Hv Hu) as [-> _]. split; [discriminate|]. intros Q; contradiction.
  - exists g. splits; auto. intros v Hv Hu Q. destruct (U v Hv Hu) as [-> ->]. specialize (LB eq_refl). congruence.
Qed.

(* ---- phases made from a volume *)
(* T and V: raises ValueError unless V is above the covolume and the pressure is positive; then the phase has the pressure of the
   equation of state, and the volume asked for for the rest of the run. *)
Theorem C70_TV ops1 ops2 i p T V zs : let w := run empty ops1 in nth_error (objs w) i = Some p ->
  let o := OTo i zs (Some T) None (Some V) in
  (~ (cov zs < V /\ 0 < Peos T V zs) -> step w o = (w, Raise ValueError)) /\
  (cov zs < V -> 0 < Peos T V zs -> exists w1 k q, step w o = (w1, New k) /\ snd (step (run w1 ops2) (OProp k)) = Vol V /\
     nth_error (objs (run w1 ops2)) k = Some q /\ gas q = gas p /\ oT q = Some T /\ oP q = Some (Peos T V zs) /\ ozs q = zs).
Proof.
  intros w Hi o. pose proof (run_inv ops1 _ inv_empty) as HI. fold w in HI. clearbody w.
  assert (ST : step w o = match eos_TV pip crit cov Peos T V zs with
    | Some e => add w e (mkO (gas p) (Some (List.length (heap w))) (Some T) (Some (cP e)) zs None) | None => (w, Raise ValueError) end).
  { subst o. cbn [Model_ceos.step]. rewrite Hi. reflexivity. }
  assert (X : Inv (fst (step w o))) by apply (step_inv w _ HI). clearbody o. rewrite ST in *. clear ST. unfold eos_TV in *.
  pose proof (eos_V_spec T (Peos T V zs) V zs) as SP. unfold Rleb in *. destruct (Rle_dec (Peos T V zs) 0) as [Q|Q].
  { split; auto. intros; lra. }
  destruct (eos_V T (Peos T V zs) V zs) as [e|] eqn:E; [|split; [auto|intros; lra]].
  split. { intros N. exfalso. apply N. split; [tauto|lra]. }
  intros _ _. destruct (eos_V_ok _ _ _ _ e (gas p) E) as (A & B & C & D1 & D2 & D3 & _). cbn [fst add] in X.
  assert (HH : holds (gas p) (List.length (objs w)) (List.length (heap w)) (Some T) (Some (cP e)) zs e
    (mkW (heap w ++ [e]) (objs w ++ [mkO (gas p) (Some (List.length (heap w))) (Some T) (Some (cP e)) zs None]))).
  { refine (holds_now _ _ (mkO (gas p) (Some (List.length (heap w))) (Some T) (Some (cP e)) zs None) _ _ X _ _ _); cbn [heap objs]; try apply nth_app_new; auto. }
  pose proof (holds_run _ _ _ _ _ _ _ ops2 _ X HH) as K. pose proof (holds_prop _ _ _ _ _ _ _ _ K) as KP. rewrite C in KP.
  destruct K as (p' & e' & H1 & H2 & H3 & H4 & H5 & H6 & _). unfold add. exists (mkW (heap w ++ [e]) (objs w ++ [mkO (gas p) (Some (List.length (heap w))) (Some T) (Some (cP e)) zs None])), (List.length (objs w)), p'.
  splits; auto; congruence.
Qed.
(* P and V: the temperature found by solve_T *)
Theorem C70_PV ops1 ops2 i p P V zs : let w := run empty ops1 in nth_error (objs w) i = Some p ->
  let o := OTo i zs None (Some P) (Some V) in
  (Tsolve (gas p) P V zs = None \/ V <= cov zs -> step w o = (w, Raise ValueError)) /\
  (forall T, Tsolve (gas p) P V zs = Some T -> cov zs < V -> exists w1 k q, step w o = (w1, New k) /\ snd (step (run w1 ops2) (OProp k)) = Vol V /\
     nth_error (objs (run w1 ops2)) k = Some q /\ gas q = gas p /\ oT q = Some T /\ oP q = Some P /\ ozs q = zs).
Proof.
  intros w Hi o. pose proof (run_inv ops1 _ inv_empty) as HI. fold w in HI. clearbody w.
  assert (ST : step w o = match eos_PV pip crit cov Tsolve (gas p) P V zs with
    | Some e => add w e (mkO (gas p) (Some (List.length (heap w))) (Some (cT e)) (Some P) zs None) | None => (w, Raise ValueError) end).
  { subst o. cbn [Model_ceos.step]. rewrite Hi. reflexivity. }
  assert (X : Inv (fst (step w o))) by apply (step_inv w _ HI). clearbody o. rewrite ST in *. clear ST. unfold eos_PV in *.
  destruct (Tsolve (gas p) P V zs) as [T|]; [|split; [auto|intros; discriminate]]. pose proof (eos_V_spec T P V zs) as SP.
  destruct (eos_V T P V zs) as [e|] eqn:E; [|split; [auto|intros; lra]]. split. { intros [N|N]; [discriminate|]. lra. }
  intros T' ET _. inversion ET; subst T'. destruct (eos_V_ok _ _ _ _ e (gas p) E) as (A & B & C & D1 & D2 & D3 & _). cbn [fst add] in X.
  assert (HH : holds (gas p) (List.length (objs w)) (List.length (heap w)) (Some (cT e)) (Some P) zs e
    (mkW (heap w ++ [e]) (objs w ++ [mkO (gas p) (Some (List.length (heap w))) (Some (cT e)) (Some P) zs None]))).
  { refine (holds_now _ _ (mkO (gas p) (Some (List.length (heap w))) (Some (cT e)) (Some P) zs None) _ _ X _ _ _); cbn [heap objs]; try apply nth_app_new; auto. }
  pose proof (holds_run _ _ _ _ _ _ _ ops2 _ X HH) as K. pose proof (holds_prop _ _ _ _ _ _ _ _ K) as KP. rewrite C in KP.
  destruct K as (p' & e' & H1 & H2 & H3 & H4 & H5 & H6 & _). unfold add. exists (mkW (heap w ++ [e]) (objs w ++ [mkO (gas p) (Some (List.length (heap w))) (Some (cT e)) (Some P) zs None])), (List.length (objs w)), p'.
  splits; auto; congruence.
Qed.
(* Without T, both P and V are needed. *)
Theorem C70_missing ops i p zs P V : let w := run empty ops in nth_error (objs w) i = Some p -> P = None \/ V = None ->
  step w (OTo i zs None P V) = (w, Raise ValueError).
Proof. intros w Hi HN. cbn [Model_ceos.step]. rewrite Hi. cbv zeta. destruct P, V; auto. destruct HN; discriminate. Qed.
(* With T alone no exception is raised: the phase made has no pressure and no equation of state, and no property can be had from it. *)
Theorem C70_T_only_refuted ops1 ops2 i p zs T : let w := run empty ops1 in nth_error (objs w) i = Some p -> exists w1 k q,
  step w (OTo i zs (Some T) None None) = (w1, New k) /\ nth_error (objs w1) k = Some q /\ oP q = None /\
  snd (step (run w1 ops2) (OProp k)) = Raise Attribute_Error.
Proof.
  intros w Hi. pose proof (run_inv ops1 _ inv_empty) as HI. fold w in HI. pose proof (step_inv w (OTo i zs (Some T) None None) HI) as [X _]. clearbody w.
  assert (ST : step w (OTo i zs (Some T) None None) = add_o w (mkO (gas p) None (Some T) None zs None)). { cbn [Model_ceos.step]. rewrite Hi. reflexivity. }
  rewrite ST in *. clear ST. unfold add_o in *. eexists _, _, _. split; [reflexivity|]. split; [cbn; apply nth_app_new|]. split; [reflexivity|]. cbn [fst] in X.
  assert (Z : exists q, nth_error (objs (mkW (heap w) (objs w ++ [mkO (gas p) None (Some T) None zs None]))) (List.length (objs w)) = Some q /\ eref q = None).
  { eexists. split; [cbn; apply nth_app_new|reflexivity]. }
  revert X Z. generalize (mkW (heap w) (objs w ++ [mkO (gas p) None (Some T) None zs None])) as w2. generalize (List.length (objs w)) as k. clear HI Hi.
  induction ops2 as [|o ops2 IH]; intros k w2 X (q & Z1 & Z2); cbn.
  - rewrite Z1, Z2. reflexivity.
  - destruct (step_inv w2 o X) as [X' [_ Y]]. apply IH; auto. destruct (Y k q Z1) as (q' & Y1 & _ & Y2 & _). exists q'. split; auto. congruence.
Qed.

(* ---- the root of lowest Gibbs energy *)
(* lnphis_G_min: of the smallest and the largest admissible root the one with the lower departure Gibbs energy, the larger one if they are
   equal; at any time of the run, whether or not the other root had been solved for. *)
Definition lowest_root (tie_gas : bool) (A : R -> Prop) (G : R -> R) (v : R) : Prop :=
  exists mn mx, least A mn /\ greatest A mx /\ v = (if tie_gas then (if Rlt_dec (G mn) (G mx) then mn else mx) else (if Rlt_dec (G mx) (G mn) then mx else mn)).
Theorem C70_G_min ops1 ops2 o g T P zs w1 k : let w := run empty ops1 in makes w o g T P zs -> step w o = (w1, New k) ->
  exists v, snd (step (run w1 ops2) (OGMin k)) = Vol v /\ lowest_root true (has (cov zs) (roots T P zs)) (Gdep T P zs) v.
Proof.
  intros w HM HS. pose proof (run_inv ops1 _ inv_empty) as HI. fold w in HI. pose proof (step_inv w o HI) as [HI1 _]. rewrite HS in HI1. cbn in HI1.
  destruct (made w o g T P zs w1 k HI HM HS) as (l & e & p & K1 & K2 & K3 & K4 & C1 & C2 & C3 & C4 & _).
  pose proof (holds_run _ _ _ _ _ _ _ ops2 w1 HI1 K1) as K.
  destruct K as (p' & e' & H1 & H2 & H3 & H4 & H5 & H6 & H7 & H8 & H9 & H10 & H11 & H12 & H13 & H14 & H15).
  cbn [Model_ceos.step]. rewrite H1, H3, H7. unfold gmin. assert (OK := H14).
  destruct (solve_missing_ok e' OK) as (e2 & E2 & (mn & mx & S & LB & RR) & UP & PO1 & PO2).
  destruct UP as (U1 & U2 & U3 & U4 & U5 & _). rewrite U4, H11, C4, U1, U2, U3, H8, H9, H10, C1, C2, C3 in RR. destruct RR as (_ & L & G).
  destruct S as (S1 & S2 & S3 & S4). destruct (ph (est e')) as [[| |]|] eqn:EP.
  - assert (e2 = e'). { unfold Model_ceos.solve_missing in E2. rewrite EP in E2. congruence. } subst e2.
    destruct S4 as [[S4 _]|[S4 [(_ & S5 & S6)|(S4' & _)]]]; try congruence. unfold root, vol. rewrite S6. cbn [negb]. rewrite S5. cbn [snd]. exists mn. split; auto.
    subst mx. exists mn, mn. splits; auto. destruct (Rlt_dec _ _); auto.
  - assert (e2 = e'). { unfold Model_ceos.solve_missing in E2. rewrite EP in E2. congruence. } subst e2.
    destruct S4 as [[S4 _]|[S4 [(S4' & _)|(_ & S5 & S6)]]]; try congruence. unfold root, vol. rewrite S6. cbn [snd]. exists mx. split; auto.
    subst mx. exists mn, mn. splits; auto. destruct (Rlt_dec _ _); auto.
  - rewrite E2. assert (VL : V_l (est e2) = Some mn). { destruct S1 as [S1|S1]; auto. destruct (PO2 ltac:(congruence)). exact S1. }
    assert (VG : V_g (est e2) = Some mx). { destruct S2 as [S2|S2]; auto. destruct (PO1 ltac:(congruence)). exact S2. }
    rewrite VL, VG. cbn [snd]. unfold G_of. rewrite U1, U2, U3, H8, H9, H10, C1, C2, C3. eexists. split; [reflexivity|]. exists mn, mx. splits; auto. unfold Rltb. destruct (Rlt_dec _ _); reflexivity.
  - destruct OK as (a & b & _ & OK & _). unfold lab_ok in OK. rewrite EP in OK. contradiction.
Qed.
(* lnphis_lowest_Gibbs: the same, except that the smaller root is taken if they are equal, for a phase from the constructor or sharing the
   equation of state object of another phase. *)
Definition both_solved (e : eos) : Prop := phase_ok true e /\ phase_ok false e.
Lemma lowest_ok e mn mx : shape (est e) mn mx -> both_solved e -> lowest Gdep e = Some (if Rlt_dec (G_of Gdep e mx) (G_of Gdep e mn) then mx else mn).
Proof.
  intros (S1 & S2 & S3 & S4) [B1 B2]. unfold lowest. destruct S4 as [[S4 _]|[S4 [(_ & S5 & S6)|(_ & S5 & S6)]]].
  - pose proof (B1 S4) as Q1. pose proof (B2 S4) as Q2. cbn in Q1, Q2. destruct S1 as [S1|S1]; [congruence|]. destruct S2 as [S2|S2]; [congruence|]. rewrite S1, S2. unfold Rltb. destruct (Rlt_dec _ _); reflexivity.
  - rewrite S6. unfold root, vol. rewrite S6. cbn. rewrite S5. subst. destruct (Rlt_dec _ _); auto.
  - rewrite S6, S5. unfold root, vol. rewrite S6. subst. destruct (Rlt_dec _ _); auto.
Qed.
Theorem C70_lowest_Gibbs ops1 ops2 o g T P zs w1 k : let w := run empty ops1 in makes w o g T P zs ->
  (match o with ONew _ _ _ _ | OToTP _ _ _ _ (Some _) => True | _ => False end) -> step w o = (w1, New k) ->
  exists v, snd (step (run w1 ops2) (OLowest k)) = Vol v /\ lowest_root false (has (cov zs) (roots T P zs)) (Gdep T P zs) v.
Proof.
  intros w HM HO HS. pose proof (run_inv ops1 _ inv_empty) as HI. fold w in HI. pose proof (step_inv w o HI) as [HI1 _]. rewrite HS in HI1. cbn in HI1.
  destruct (made w o g T P zs w1 k HI HM HS) as (l & e & p & K1 & K2 & K3 & K4 & C1 & C2 & C3 & C4 & BS).
  assert (BS' : both_solved e) by (destruct o as [| |? ? ? ? [|]| | | |]; try contradiction; exact BS). clear BS.
  assert (OKe : eos_ok e) by (apply (proj1 HI1 l e K2)). destruct OKe as (mn & mx & S & _ & R). rewrite C4, C1, C2, C3 in R. destruct R as (_ & L & G).
  pose proof (lowest_ok e mn mx S BS') as LO.
  assert (Z : exists q, nth_error (objs w1) k = Some q /\ eref q = Some l /\ nth_error (heap w1) l = Some e /\ (low q = None \/ low q = lowest Gdep e)).
  { exists p. splits; auto. destruct K1 as (p' & e' & H1 & H2 & H3 & _). congruence. }
  assert (Z2 : exists q, nth_error (objs (run w1 ops2)) k = Some q /\ eref q = Some l /\ nth_error (heap (run w1 ops2)) l = Some e /\ (low q = None \/ low q = lowest Gdep e)).
  { revert HI1 Z. clear K1 K2 K3 HS. revert w1. induction ops2 as [|o2 ops2 IH]; intros w1 HI1 Z; cbn; auto. destruct Z as (q & Z1 & Z2 & Z3 & Z4).
    destruct (step_inv w1 o2 HI1) as [HI2 [X Y]]. apply IH; auto. destruct (X l e Z3) as (e' & X1 & X2). destruct (Y k q Z1) as (q' & Y1 & _ & Y2 & _ & _ & _ & Y3).
    assert (e' = e). { destruct X2 as (_ & _ & _ & _ & _ & _ & _ & X3 & X4). destruct S as (_ & _ & _ & [[S _]|[_ [(S & _)|(S & _)]]]); try (apply X3; congruence).
      apply X4; [apply (proj2 BS' S)|apply (proj1 BS' S)]. }
    subst e'. exists q'. splits; auto; try congruence. destruct Y3 as [Y3|(Y3 & l' & e' & Y4 & Y5 & Y6)]; [rewrite Y3; auto|]. right. congruence. }
  destruct Z2 as (q & Q1 & Q2 & Q3 & Q4). cbn [Model_ceos.step]. rewrite Q1, Q2, Q3. exists (if Rlt_dec (G_of Gdep e mx) (G_of Gdep e mn) then mx else mn). split.
  - destruct Q4 as [Q4|Q4]; rewrite Q4, LO; reflexivity.
  - exists mn, mx. splits; auto. unfold G_of. rewrite C1, C2, C3. reflexivity.
Qed.

(* ---- recalculating with full derivatives *)
(* resolve_full_alphas sets the root again if exactly one of the two has been solved for *)
Theorem C70_resolve_one T P zs g e mn mx : least (has (cov zs) (roots T P zs)) mn -> greatest (has (cov zs) (roots T P zs)) mx -> mn <> mx ->
  cT e = T -> cP e = P -> czs e = zs -> eraw e = Some (roots T P zs) -> vol g (est e) <> None -> vol (negb g) (est e) = None ->
  exists e', resolve_full_alphas pip crit cov e = Some e' /\ vol g (est e') = Some (if g then mx else mn) /\ vol (negb g) (est e') = None.
Proof.
  intros L G N C1 C2 C3 C4 HV HN. unfold resolve_full_alphas, Model_ceos.resolve1. rewrite C1, C2, C3, C4. rewrite (set_two T P zs _ _ _ mn mx L G N).
  unfold vol in *. destruct g; cbn [negb] in *.
  - destruct (V_g (est e)); [|contradiction]. rewrite HN. eexists. split; [reflexivity|]. cbn. rewrite ?HN. auto.
  - destruct (V_l (est e)); [|contradiction]. rewrite HN. eexists. split; [reflexivity|]. cbn. rewrite ?HN. auto.
Qed.
(* If both have been solved for, neither is: whatever was stored for them stays. *)
Theorem C70_resolve_both_refuted T P zs e mn mx a b : least (has (cov zs) (roots T P zs)) mn -> greatest (has (cov zs) (roots T P zs)) mx -> mn <> mx ->
  cT e = T -> cP e = P -> czs e = zs -> eraw e = Some (roots T P zs) -> V_l (est e) = Some a -> V_g (est e) = Some b ->
  exists e', resolve_full_alphas pip crit cov e = Some e' /\ V_l (est e') = Some a /\ V_g (est e') = Some b.
Proof.
  intros L G N C1 C2 C3 C4 HL HG. unfold resolve_full_alphas, Model_ceos.resolve1. rewrite C1, C2, C3, C4, HL, HG. rewrite (set_two T P zs _ _ _ mn mx L G N).
  eexists. split; [reflexivity|]. cbn. auto.
Qed.
End Worlds.

(* lnphis_lowest_Gibbs of a phase made with to looks only at the root of its class, and so need not give the coefficients of the root of lowest
   Gibbs energy; what it gives depends on whether lnphis_G_min was called before, and is kept afterwards. *)
Definition ex_step := step (fun _ _ _ _ => 0) (fun _ _ _ => false) (fun _ => 1 / 2) (fun _ _ _ => [(1, 0); (2, 0); (3, 0)]) (fun _ _ _ => 1) (fun _ _ _ _ => None) (fun _ _ _ V => V).
Definition ex_run := run (fun _ _ _ _ => 0) (fun _ _ _ => false) (fun _ => 1 / 2) (fun _ _ _ => [(1, 0); (2, 0); (3, 0)]) (fun _ _ _ => 1) (fun _ _ _ _ => None) (fun _ _ _ V => V).
Lemma ex_range : in_range (1 / 2) [(1, 0); (2, 0); (3, 0)].
Proof.
  pose proof huge_pos. assert (4 < huge) by (unfold huge; apply IZR_lt; reflexivity).
  split; [lra|]. intros v (V & [E|[E|[E|[]]]] & (A & _)); subst V; cbn in A; lra.
Qed.
Lemma ex_least : least (has (1 / 2) [(1, 0); (2, 0); (3, 0)]) 1.
Proof. split. { exists (1, 0). split; [left; auto|]. split; [reflexivity|]. cbn. split; [auto|lra]. } intros v (V & [E|[E|[E|[]]]] & (A & _)); subst V; cbn in A; lra. Qed.
Lemma ex_greatest : greatest (has (1 / 2) [(1, 0); (2, 0); (3, 0)]) 3.
Proof. split. { exists (3, 0). split; [cbn; auto|]. split; [reflexivity|]. cbn. split; [auto|lra]. } intros v (V & [E|[E|[E|[]]]] & (A & _)); subst V; cbn in A; lra. Qed.
Lemma ex_set ol og s : set_from_PT (fun _ => 0) false (1 / 2) [(1, 0); (2, 0); (3, 0)] ol og s = Some (mk (if og then V_l s else Some 1) (if ol then V_g s else Some 3) (Some LiqGas)).
Proof.
  apply (set_two (fun _ _ _ _ => 0) (fun _ _ _ => false) (fun _ => 1 / 2) (fun _ _ _ => [(1, 0); (2, 0); (3, 0)]) (fun _ _ _ => ex_range) 0 0 [] ol og s 1 3 ex_least ex_greatest). lra.
Qed.
Ltac exs := cbn; repeat (progress (unfold eos_from, eos_TP, resolve1, G_of; cbn; rewrite ?ex_set; cbn; rewrite ?(Rltb_true 1 3), ?(Rltb_false 3 1) by lra; cbn)).
Theorem C70_lowest_Gibbs_refuted : let ops := [ONew true 300 1 [1]; OTo 0 [1] (Some 300) (Some 2) None] in let w := ex_run empty ops in
  lowest_root false (has (1 / 2) [(1, 0); (2, 0); (3, 0)]) (fun V => V) 1 /\
  snd (ex_step w (OLowest 1)) = Vol 3 /\ snd (ex_step w (OGMin 1)) = Vol 1 /\
  snd (ex_step (ex_run w [OGMin 1]) (OLowest 1)) = Vol 1 /\ snd (ex_step (ex_run w [OLowest 1; OGMin 1]) (OLowest 1)) = Vol 3.
Proof.
  cbv zeta. unfold ex_run, ex_step. splits.
  - exists 1, 3. splits. apply ex_least. apply ex_greatest. destruct (Rlt_dec 3 1); lra.
  - exs. reflexivity. - exs. reflexivity. - exs. reflexivity. - exs. reflexivity.
Qed.
(* a run in which the hypotheses of the theorems hold: a gas, a gas made from it at other conditions, a liquid sharing the equation of
   state object of the latter *)
Example C70_hypotheses_met : let ops := [ONew true 300 1 [1]; OTo 0 [1] (Some 300) (Some 2) None; ONew false 300 1 [1]] in
  exists w1, ex_step (ex_run empty ops) (OToTP 2 300 2 [1] (Some 1%nat)) = (w1, New 3) /\
  makes (ex_run empty ops) (OToTP 2 300 2 [1] (Some 1%nat)) false 300 2 [1] /\
  snd (ex_step w1 (OProp 3)) = Vol 1 /\ snd (ex_step w1 (OProp 1)) = Vol 3 /\ snd (ex_step w1 (OPhase 3)) = IsPhase false /\ snd (ex_step w1 (OPhase 1)) = IsPhase true.
Proof.
  cbv zeta. unfold ex_run, ex_step. eexists. split; [exs; reflexivity|]. splits; try (exs; reflexivity).
  eapply (makes_shared _ 2 (mkO false (Some 2%nat) (Some 300) (Some 1) [1] None) 1 (mkO true (Some 1%nat) (Some 300) (Some 2) [1] None) 1); exs; reflexivity.
Qed.

(* ---- compositions other than that of the phase *)
(* lnphis_at_zs and fugacities_at_zs select among the three volumes of the solver (zero: no root). If the first is above the covolume, they use
   the root a phase of the class made at that composition would answer from. *)
Theorem C70_at_zs G g ms b V0 V1 V2 : 0 <= b -> b < V0 -> (V1 = 0 -> V2 = 0) ->
  extreme g (has b [(V0, 0); (V1, 0); (V2, 0)]) (at_zs_root G g ms b V0 V1 V2).
Proof.
  intros Hb H0 H12.
  assert (HH : forall v, has b [(V0, 0); (V1, 0); (V2, 0)] v <-> v = V0 \/ (v = V1 /\ b < V1) \/ (v = V2 /\ b < V2)).
  { intros v. split.
    - intros (V & [E|[E|[E|[]]]] & (A & _ & B)); subst V; cbn in A; subst v; auto.
    - intros [->|[[-> Q]|[-> Q]]]; [exists (V0, 0)|exists (V1, 0)|exists (V2, 0)]; (split; [cbn; auto|]); (split; [reflexivity|]); cbn; auto. }
  unfold at_zs_root, select_root. destruct g; cbn [negb andb extreme].
  - unfold greatest. unfold Reqb, Rltb. setoid_rewrite HH.
    destruct (Req_EM_T V1 0) as [E|E]; cbn [negb].
    { rewrite (H12 E) in *. subst V1. split; auto. intros v [->|[[-> Q]|[-> Q]]]; lra. }
    destruct (Rlt_dec V0 V1), (Rlt_dec b V1); cbn [andb]; repeat (destruct (Rlt_dec _ _); cbn [andb]); split; auto; intros v [->|[[-> Q]|[-> Q]]]; lra.
  - unfold least. unfold Reqb, Rltb. setoid_rewrite HH.
    destruct (Req_EM_T V1 0) as [E|E]; cbn [negb].
    { rewrite (H12 E) in *. subst V1. split; auto. intros v [->|[[-> Q]|[-> Q]]]; lra. }
    destruct (Rlt_dec V1 V0), (Rlt_dec b V1); cbn [andb]; repeat (destruct (Rlt_dec _ _); cbn [andb]); split; auto; intros v [->|[[-> Q]|[-> Q]]]; lra.
Qed.
(* When the solver did not converge it returns three zeros. A phase cannot be made from them (ValueError), but lnphis_at_zs goes on with a
   volume of zero. *)
Theorem C70_at_zs_no_root_refuted G g ms b : 0 <= b -> at_zs_root G g ms b 0 0 0 = 0 /\ forall pip crit ol og s, set_from_PT pip crit b [(0, 0); (0, 0); (0, 0)] ol og s = None.
Proof.
  intros Hb. split.
  - unfold at_zs_root, select_root. rewrite (Reqb_true 0 0) by auto. destruct g; reflexivity.
  - intros. apply C11_raises.
    + split. { pose proof huge_pos. lra. } intros v (V & [E|[E|[E|[]]]] & (A & _)); subst V; cbn in A; subst v; apply huge_pos.
    + intros v (V & [E|[E|[E|[]]]] & (A & _ & B)); subst V; cbn in A; lra.
Qed.
(* most_stable makes no difference: asked for the most stable root, a gas phase still uses its own *)
Theorem C70_most_stable_refuted : exists G b V0 V1 V2 v, 0 < b < V0 /\ at_zs_root G true true b V0 V1 V2 = v /\ has b [(V0, 0); (V1, 0); (V2, 0)] v /\
  exists u, has b [(V0, 0); (V1, 0); (V2, 0)] u /\ G u < G v.
Proof.
  exists (fun V => V), (1 / 2), 1, 2, 3, 3. splits; try lra.
  - unfold at_zs_root, select_root. cbn [negb andb]. rewrite (Reqb_false 2 0) by lra. cbn [negb]. rewrite (Rltb_true 1 2), (Rltb_true (1 / 2) 2) by lra. cbn [andb].
    rewrite (Rltb_true 2 3), (Rltb_true (1 / 2) 3) by lra. reflexivity.
  - apply ex_greatest. - exists 1. split; [apply ex_least|lra].
Qed.
