(* C34: flash specification dispatch. *)
From Coq Require Import Reals Lra Lia List Bool Arith.
From Verif Require Import Base BaseFacts Model_flash Spec_flash.
Import ListNotations.
Open Scope R_scope.

(* The values given for one quantity and the value kept: none, one, or several. *)
Definition group (v : var) (l : list (var * R)) (o : option R) : Prop :=
  (l = [] /\ o = None) \/ (exists x, l = [(v, x)] /\ o = Some x) \/ (exists x, (2 <= length l)%nat /\ In (v, x) l /\ (forall p, In p l -> fst p = v) /\ o = Some x).
Lemma group_arg v o : group v (arg v o) o.
Proof. destruct o as [x|]; [right; left; exists x|left]; auto. Qed.
Lemma group_over v l n o : group v l o -> group v (l ++ arg v n) (over n o).
Proof.
  intros H. destruct n as [x|]; cbn.
  - destruct H as [[-> ->]|[[y [-> ->]]|[y (H1 & H2 & H3 & ->)]]].
    + right; left. exists x. auto.
    + right; right. exists x. cbn. splits; auto. intros p [<-|[<-|[]]]; reflexivity.
    + right; right. exists x. rewrite app_length. cbn. splits; auto; [lia|apply in_or_app; right; left; reflexivity|]. intros p Hp. apply in_app_or in Hp. destruct Hp as [Hp|[<-|[]]]; auto.
  - rewrite app_nil_r. exact H.
Qed.
Lemma map_ext_arg v (g h : R -> R) o : (forall x, g x = h x) -> arg v (option_map g o) = arg v (option_map h o).
Proof. intros E. destruct o; cbn; auto. now rewrite E. Qed.
Section Groups.
Variables (f : flasher) (zs : list R) (a : flash_args).
Let M := molar_mass f zs.
Hypothesis HM : mixing_simple zs (f_MWs f) <> 0.
Lemma group_V : (forall r, a_rho_mass a = Some r -> r <> 0) -> group vV (arg vV (a_V a) ++ arg vV (option_map (fun r => / r) (a_rho a)) ++ arg vV (option_map (fun r => M / r) (a_rho_mass a))) (flash_V f a zs).
Proof.
  intros Hr. unfold flash_V. rewrite app_assoc. replace (option_map (fun r => rho_to_Vm r (mixing_simple zs (f_MWs f))) (a_rho_mass a)) with (option_map (fun r => M / r) (a_rho_mass a)).
  2: { destruct (a_rho_mass a) as [r|] eqn:E; auto. cbn. f_equal. unfold rho_to_Vm, M, molar_mass, mixing_simple in *. specialize (Hr r eq_refl). field. auto. }
  apply group_over. replace (option_map (fun r => 1 / r) (a_rho a)) with (option_map (fun r => / r) (a_rho a)) by (destruct (a_rho a); auto; cbn; f_equal; unfold Rdiv; ring). apply group_over, group_arg.
Qed.
Lemma group_mass v m o : group v (arg v o ++ arg v (option_map (fun h => h * M) m)) (flash_mass f zs m o).
Proof. unfold flash_mass. replace (option_map _ m) with (option_map (fun h => property_mass_to_molar h (mixing_simple zs (f_MWs f))) m) by (destruct m; auto). apply group_over, group_arg. Qed.
Lemma group_H : group vH (arg vH (a_H a) ++ arg vH (option_map (fun h => h * M) (a_H_mass a)) ++ arg vH (option_map (fun h => h - rsum (f_N f) (fun i => nth i zs 0 * f_Hfgs f i)) (a_H_reactive a))) (flash_H f a zs).
Proof. unfold flash_H. rewrite app_assoc. apply group_over, group_mass. Qed.
End Groups.
(* usable composition and density: no division by zero *)
Definition regular_call (f : flasher) (zs : list R) (a : flash_args) : Prop := flash_zs f a = Some zs /\ mixing_simple zs (f_MWs f) <> 0 /\ (forall r, a_rho_mass a = Some r -> r <> 0).

Definition checks_ok f (l : list (var * R)) : Prop := forall p, In p l -> acceptable f p.
Lemma check_T f o : given o && Rltb (value o) (f_Tmin f) = false <-> checks_ok f (arg vT o).
Proof. unfold checks_ok. destruct o as [x|]; cbn; [|split; auto; intros _ p []]. destruct (Rltb_spec x (f_Tmin f)); split; try discriminate; auto; intros H. specialize (H _ (or_introl eq_refl)). cbn in H. lra. intros p [<-|[]]. cbn. lra. Qed.
Lemma check_pos f v o : v = vP \/ v = vV -> (given o && Rleb (value o) 0 = false <-> checks_ok f (arg v o)).
Proof. unfold checks_ok. intros Hv. destruct o as [x|]; cbn; [|split; auto; intros _ p []]. destruct (Rleb_spec x 0); split; try discriminate; auto; intros H. specialize (H _ (or_introl eq_refl)). destruct Hv; subst; cbn in H; lra. intros p [<-|[]]. destruct Hv; subst; cbn; lra. Qed.
Lemma check_frac f v ok o : (v = vVF /\ ok = f_VF_ok f) \/ (v = vSF /\ ok = f_SF_ok f) -> ((given o && (Rltb (value o) 0 || Rltb 1 (value o)) = false /\ given o && negb ok = false) <-> checks_ok f (arg v o)).
Proof.
  unfold checks_ok. intros Hv. destruct o as [x|]; cbn; [|split; auto; intros _ p []]. split.
  - intros [H1 H2] p [<-|[]]. apply orb_false_iff in H1. destruct H1 as [H0 H1]. destruct (Rltb_spec x 0), (Rltb_spec 1 x); try discriminate. apply negb_false_iff in H2. destruct Hv as [[-> ->]|[-> ->]]; cbn; split; auto; lra.
  - intros H. specialize (H _ (or_introl eq_refl)). destruct Hv as [[-> ->]|[-> ->]]; cbn in H; destruct H as [H1 ->]; rewrite !Rltb_false by lra; auto.
Qed.
Lemma checks_app f l m : checks_ok f (l ++ m) <-> checks_ok f l /\ checks_ok f m.
Proof. unfold checks_ok. split. intros H. split; intros p Hp; apply H, in_or_app; auto. intros [H1 H2] p Hp. apply in_app_or in Hp. destruct Hp; auto. Qed.
Lemma checks_spec f T P V VF SF : flash_checks f T P V VF SF = None <-> checks_ok f (arg vT T ++ arg vP P ++ arg vV V ++ arg vVF VF ++ arg vSF SF).
Proof.
  rewrite !checks_app, <- check_T, <- !(check_pos f) by auto. rewrite <- (check_frac f vVF (f_VF_ok f)), <- (check_frac f vSF (f_SF_ok f)) by auto. unfold flash_checks.
  destruct (_ && Rltb _ _); [split; [discriminate|intros; intuition congruence]|]. destruct (given P && _); [split; [discriminate|intros; intuition congruence]|]. destruct (given V && _); [split; [discriminate|intros; intuition congruence]|].
  destruct (given VF && (_ || _)); [split; [discriminate|intros; intuition congruence]|]. destruct (given VF && _); [split; [discriminate|intros; intuition congruence]|]. destruct (given SF && (_ || _)); [split; [discriminate|intros; intuition congruence]|]. destruct (given SF && _); split; auto; try discriminate; intros; intuition congruence.
Qed.
Lemma checks_nil f : checks_ok f [].
Proof. intros p []. Qed.
(* the energies are always acceptable *)
Lemma checks_free f v o : match v with vH | vS | vU | vG | vA => True | _ => False end -> checks_ok f (arg v o).
Proof. intros Hv p Hp. destruct o; cbn in Hp; [|contradiction]. destruct Hp as [<-|[]]. destruct v; cbn; auto; contradiction. Qed.

(* ---- the kept values ---- *)
Definition kept f zs a : list (var * R) :=
  flash_specs (a_T a) (a_P a) (flash_V f a zs) (flash_H f a zs) (flash_mass f zs (a_S_mass a) (a_S a)) (flash_mass f zs (a_U_mass a) (a_U a)) (flash_mass f zs (a_G_mass a) (a_G a)) (flash_mass f zs (a_A_mass a) (a_A a)) (a_VF a) (a_SF a).
Lemma group_in v l o p : group v l o -> In p (arg v o) -> In p l.
Proof. intros [[-> ->]|[[x [-> ->]]|[x (H1 & H2 & H3 & ->)]]]; cbn; auto. intros [<-|[]]. exact H2. Qed.
Lemma group_len v l o : group v l o -> (length (arg v o) <= length l)%nat.
Proof. intros [[-> ->]|[[x [-> ->]]|[x (H1 & H2 & H3 & ->)]]]; cbn; auto. lia. Qed.
Lemma kept_in f zs a p : regular_call f zs a -> In p (kept f zs a) -> In p (arguments f zs a).
Proof.
  intros (_ & HM & Hr). unfold kept, flash_specs, arguments. cbv zeta. change (fun k o => match o with Some v => [(k, v)] | None => [] end) with arg.
  fold (arg vT (a_T a)) (arg vP (a_P a)) (arg vV (flash_V f a zs)) (arg vH (flash_H f a zs)) (arg vS (flash_mass f zs (a_S_mass a) (a_S a))) (arg vU (flash_mass f zs (a_U_mass a) (a_U a))) (arg vG (flash_mass f zs (a_G_mass a) (a_G a))) (arg vA (flash_mass f zs (a_A_mass a) (a_A a))) (arg vVF (a_VF a)) (arg vSF (a_SF a)).
  intros H. repeat (apply in_app_or in H; destruct H as [H|H]; [|apply in_or_app; right]); try (apply in_or_app; left); auto.
  - eapply group_in. apply group_V; auto. auto.
  - eapply group_in. apply group_H; auto. auto.
  - eapply group_in. apply group_mass; auto. auto.
  - eapply group_in. apply group_mass; auto. auto.
  - eapply group_in. apply group_mass; auto. auto.
  - eapply group_in. apply group_mass; auto. auto.
Qed.
Ltac zap := repeat match goal with l : list (var * R) |- _ => assert (l = []) by (apply length_zero_iff_nil; lia); subst l end; repeat match goal with H : arg _ _ = [] |- _ => rewrite !H; clear H end.
(* with at most two arguments, the kept ones are the arguments, or only one is kept *)
Lemma kept_two f zs a : regular_call f zs a -> (length (arguments f zs a) <= 2)%nat -> kept f zs a = arguments f zs a \/ ((length (kept f zs a) <= 1)%nat /\ forall p q, In p (arguments f zs a) -> In q (arguments f zs a) -> fst p = fst q).
Proof.
  intros (_ & HM & Hr). unfold kept, flash_specs, arguments. cbv zeta.
  fold (arg vT (a_T a)) (arg vP (a_P a)) (arg vV (flash_V f a zs)) (arg vH (flash_H f a zs)) (arg vS (flash_mass f zs (a_S_mass a) (a_S a))) (arg vU (flash_mass f zs (a_U_mass a) (a_U a))) (arg vG (flash_mass f zs (a_G_mass a) (a_G a))) (arg vA (flash_mass f zs (a_A_mass a) (a_A a))) (arg vVF (a_VF a)) (arg vSF (a_SF a)).
  generalize (group_V f zs a HM Hr) (group_H f zs a) (group_mass f zs vS (a_S_mass a) (a_S a)) (group_mass f zs vU (a_U_mass a) (a_U a)) (group_mass f zs vG (a_G_mass a) (a_G a)) (group_mass f zs vA (a_A_mass a) (a_A a)).
  generalize (arg vT (a_T a)) (arg vP (a_P a)) (arg vVF (a_VF a)) (arg vSF (a_SF a)). intros lT lP lVF lSF.
  match goal with |- group _ ?l ?o -> _ => generalize l o end. intros l1 o1 H1.
  match goal with |- group _ ?l ?o -> _ => generalize l o end. intros l2 o2 H2.
  match goal with |- group _ ?l ?o -> _ => generalize l o end. intros l3 o3 H3.
  match goal with |- group _ ?l ?o -> _ => generalize l o end. intros l4 o4 H4.
  match goal with |- group _ ?l ?o -> _ => generalize l o end. intros l5 o5 H5.
  match goal with |- group _ ?l ?o -> _ => generalize l o end. intros l6 o6 H6.
  rewrite !app_length.
  assert (forall v l o, group v l o -> l = arg v o \/ ((2 <= length l)%nat /\ length (arg v o) = 1%nat /\ forall p, In p l -> fst p = v)) as K. { intros v l o [[-> ->]|[[x [-> ->]]|[x (A & B & C & ->)]]]; auto. }
  pose proof (group_len _ _ _ H1). pose proof (group_len _ _ _ H2). pose proof (group_len _ _ _ H3). pose proof (group_len _ _ _ H4). pose proof (group_len _ _ _ H5). pose proof (group_len _ _ _ H6).
  intros HL.
  destruct (K _ _ _ H1) as [E1|(E1 & F1 & Q)]; [|right; split; [lia|zap; rewrite ?app_nil_r; cbn [app]; intros p q Hp Hq; rewrite (Q p), (Q q); auto]]. destruct (K _ _ _ H2) as [E2|(E2 & F2 & Q)]; [|right; split; [lia|zap; rewrite ?app_nil_r; cbn [app]; intros p q Hp Hq; rewrite (Q p), (Q q); auto]]. destruct (K _ _ _ H3) as [E3|(E3 & F3 & Q)]; [|right; split; [lia|zap; rewrite ?app_nil_r; cbn [app]; intros p q Hp Hq; rewrite (Q p), (Q q); auto]].
  destruct (K _ _ _ H4) as [E4|(E4 & F4 & Q)]; [|right; split; [lia|zap; rewrite ?app_nil_r; cbn [app]; intros p q Hp Hq; rewrite (Q p), (Q q); auto]]. destruct (K _ _ _ H5) as [E5|(E5 & F5 & Q)]; [|right; split; [lia|zap; rewrite ?app_nil_r; cbn [app]; intros p q Hp Hq; rewrite (Q p), (Q q); auto]]. destruct (K _ _ _ H6) as [E6|(E6 & F6 & Q)]; [|right; split; [lia|zap; rewrite ?app_nil_r; cbn [app]; intros p q Hp Hq; rewrite (Q p), (Q q); auto]].
  left. now rewrite E1, E2, E3, E4, E5, E6.
Qed.
(* the dispatch on the kept values *)
Ltac opt o := destruct o as [?|]; cbn in *; try lia; try discriminate.
Lemma dispatch_few zs r T P V H S U G A VF SF : (length (flash_specs T P V H S U G A VF SF) <= 1)%nat -> flash_dispatch zs r T P V H S U G A VF SF = Raises Inputs_unsupported.
Proof. intros L. unfold flash_specs in L. cbv zeta in L. opt T; opt P; opt V; opt H; opt S; opt U; opt G; opt A; opt VF; opt SF; reflexivity. Qed.
Definition good (o : outcome) zs l := exists c b, o = Calls c b /\ enforces c = l /\ call_zs c = zs.
Lemma dispatch_two zs r T P V H S U G A VF SF p q : flash_specs T P V H S U G A VF SF = [p; q] ->
  if supported (fst p) (fst q) then good (flash_dispatch zs r T P V H S U G A VF SF) zs [p; q] else flash_dispatch zs r T P V H S U G A VF SF = Raises Inputs_unsupported.
Proof.
  intros L. unfold flash_specs in L. cbv zeta in L.
  opt T; opt P; opt V; opt H; opt S; opt U; opt G; opt A; opt VF; opt SF; injection L as <- <-; cbn; try reflexivity; (eexists; eexists; split; [reflexivity|split; reflexivity]).
Qed.
Lemma in_specs T P V H S U G A VF SF v x : match v with vT => T | vP => P | vV => V | vH => H | vS => S | vU => U | vG => G | vA => A | vVF => VF | vSF => SF end = Some x -> In (v, x) (flash_specs T P V H S U G A VF SF).
Proof. unfold flash_specs. cbv zeta. intros E. destruct v; rewrite E; repeat (first [left; reflexivity | apply in_or_app; left; left; reflexivity | apply in_or_app; right]). Qed.
Lemma dispatch_sound zs r T P V H S U G A VF SF c b : flash_dispatch zs r T P V H S U G A VF SF = Calls c b ->
  call_zs c = zs /\ (2 <= length (enforces c))%nat /\ NoDup (map fst (enforces c)) /\ (forall p, In p (enforces c) -> In p (flash_specs T P V H S U G A VF SF)) /\
  (forall c', b = Some c' -> r = true /\ call_zs c' = zs /\ enforces c' = enforces c /\ c' <> c).
Proof.
  assert (D : forall b : option call, b = None -> forall c', b = Some c' -> r = true /\ call_zs c' = zs /\ enforces c' = enforces c /\ c' <> c) by (intros ? -> ? [=]).
  assert (K : forall u x v y, In (u, x) (flash_specs T P V H S U G A VF SF) -> In (v, y) (flash_specs T P V H S U G A VF SF) -> forall p, In p [(u, x); (v, y)] -> In p (flash_specs T P V H S U G A VF SF)) by (intros ? ? ? ? ? ? p [<-|[<-|[]]]; auto).
  unfold flash_dispatch. cbv zeta.
  destruct (given T && (given P || given V) || given P && given V) eqn:E1.
  { intros [= <- <-]. splits; auto; try (intros ? [=]).
    - destruct T, P, V; cbn in *; try discriminate; lia.
    - destruct T, P, V; cbn in *; try discriminate; repeat constructor; cbn; intuition discriminate.
    - intros p Hp. cbn in Hp. repeat (apply in_app_or in Hp; destruct Hp as [Hp|Hp]); [destruct T|destruct P|destruct V]; cbn in Hp; destruct Hp as [<-|[]] || contradiction; now apply in_specs. }
  destruct (given T && given VF) eqn:E2.
  { destruct T as [t|], VF as [vf|]; try discriminate. intros [= <- <-]. splits; auto; try (intros ? [=]). repeat constructor; cbn; intuition discriminate. apply K; now apply in_specs. }
  destruct (given P && given VF) eqn:E3.
  { destruct P as [t|], VF as [vf|]; try discriminate. intros [= <- <-]. splits; auto; try (intros ? [=]). repeat constructor; cbn; intuition discriminate. apply K; now apply in_specs. }
  destruct (given T && given SF) eqn:E4.
  { destruct T as [t|], SF as [vf|]; try discriminate. intros [= <- <-]. splits; auto; try (intros ? [=]). repeat constructor; cbn; intuition discriminate. apply K; now apply in_specs. }
  destruct (given P && given SF) eqn:E5.
  { destruct P as [t|], SF as [vf|]; try discriminate. intros [= <- <-]. splits; auto; try (intros ? [=]). repeat constructor; cbn; intuition discriminate. apply K; now apply in_specs. }
  destruct (given VF && _) eqn:E6.
  { destruct (find _ _) as [[v x]|] eqn:F; [|discriminate]. intros [= <- <-]. apply find_some in F. destruct F as [F1 F2]. destruct VF as [vf|]; [|discriminate]. cbn. splits; auto; try (intros ? [=]).
    - constructor; [|constructor; auto; constructor]. intros [<-|[]]. discriminate.
    - apply K; auto. now apply in_specs. }
  clear E1 E2 E3 E4 E5 E6.
  destruct T as [t|] eqn:ET, P as [p|] eqn:EP, V as [v|] eqn:EV, H as [h|] eqn:EH, S as [s|] eqn:ES, U as [u|] eqn:EU; cbn; try discriminate; intros [= <- <-]; rewrite <- ?ET, <- ?EP, <- ?EV, <- ?EH, <- ?ES, <- ?EU in K |- *; splits; auto;
   try (repeat constructor; cbn; intuition discriminate); try (apply K; now apply in_specs); destruct r; intros c' [= <-]; splits; auto; discriminate.
Qed.
Lemma flash_eq f zs a : flash_zs f a = Some zs -> flash f a = match flash_checks f (a_T a) (a_P a) (flash_V f a zs) (a_VF a) (a_SF a) with Some e => Raises e | None =>
  flash_dispatch zs (a_retry a) (a_T a) (a_P a) (flash_V f a zs) (flash_H f a zs) (flash_mass f zs (a_S_mass a) (a_S a)) (flash_mass f zs (a_U_mass a) (a_U a)) (flash_mass f zs (a_G_mass a) (a_G a)) (flash_mass f zs (a_A_mass a) (a_A a)) (a_VF a) (a_SF a) end.
Proof. intros H. unfold flash. rewrite H. reflexivity. Qed.
Lemma checks_kept f zs a : flash_checks f (a_T a) (a_P a) (flash_V f a zs) (a_VF a) (a_SF a) = None <-> checks_ok f (kept f zs a).
Proof.
  rewrite checks_spec. unfold kept, flash_specs. cbv zeta.
  fold (arg vT (a_T a)) (arg vP (a_P a)) (arg vV (flash_V f a zs)) (arg vH (flash_H f a zs)) (arg vS (flash_mass f zs (a_S_mass a) (a_S a))) (arg vU (flash_mass f zs (a_U_mass a) (a_U a))) (arg vG (flash_mass f zs (a_G_mass a) (a_G a))) (arg vA (flash_mass f zs (a_A_mass a) (a_A a))) (arg vVF (a_VF a)) (arg vSF (a_SF a)).
  rewrite !checks_app. split; intros; intuition; now apply checks_free.
Qed.

(* ---- the theorems ---- *)
(* Exactly two specifications: a supported pair with acceptable values is passed, both values, to one algorithm; anything else is refused. *)
Theorem C34_two_specifications f zs a p q : regular_call f zs a -> arguments f zs a = [p; q] -> supported (fst p) (fst q) = true -> acceptable f p -> acceptable f q ->
  exists c backup, flash f a = Calls c backup /\ enforces c = [p; q] /\ call_zs c = zs.
Proof.
  intros HR E HS Hp Hq. rewrite (flash_eq f zs a (proj1 HR)).
  destruct (kept_two f zs a HR) as [HK|HK]; [rewrite E; auto| |].
  - destruct (flash_checks _ _ _ _ _ _) eqn:C.
    + exfalso. assert (Z : flash_checks f (a_T a) (a_P a) (flash_V f a zs) (a_VF a) (a_SF a) = None). { apply checks_kept. rewrite HK, E. intros r [<-|[<-|[]]]; auto. } rewrite C in Z. discriminate.
    + rewrite E in HK. pose proof (dispatch_two zs (a_retry a) _ _ _ _ _ _ _ _ _ _ _ _ HK) as D. rewrite HS in D. exact D.
  - exfalso. destruct HK as [_ HK]. rewrite E in HK. specialize (HK p q (or_introl eq_refl) (or_intror (or_introl eq_refl))). rewrite HK in HS. destruct (fst q); discriminate.
Qed.
Theorem C34_two_specifications_refused f zs a p q : regular_call f zs a -> arguments f zs a = [p; q] -> ~ (supported (fst p) (fst q) = true /\ acceptable f p /\ acceptable f q) ->
  exists e, flash f a = Raises e.
Proof.
  intros HR E HN. rewrite (flash_eq f zs a (proj1 HR)). destruct (flash_checks _ _ _ _ _ _) eqn:C; [eauto|]. apply (proj1 (checks_kept f zs a)) in C.
  destruct (kept_two f zs a HR) as [HK|HK]; [rewrite E; auto| |].
  - rewrite HK, E in C. rewrite E in HK. pose proof (dispatch_two zs (a_retry a) _ _ _ _ _ _ _ _ _ _ _ _ HK) as D. destruct (supported (fst p) (fst q)) eqn:S.
    + exfalso. apply HN. splits; auto; apply C; cbn; auto.
    + rewrite D. eauto.
  - rewrite dispatch_few by apply HK. eauto.
Qed.
(* fewer than two specifications are refused *)
Theorem C34_underspecified f zs a : regular_call f zs a -> (length (arguments f zs a) < 2)%nat -> exists e, flash f a = Raises e.
Proof.
  intros HR HL. rewrite (flash_eq f zs a (proj1 HR)). destruct (flash_checks _ _ _ _ _ _) eqn:C; [eauto|]. rewrite dispatch_few; [eauto|].
  destruct (kept_two f zs a HR) as [HK|[HK _]]; [lia| |exact HK]. unfold kept in HK. rewrite HK. lia.
Qed.
(* a composition is needed for more than one component *)
Theorem C34_composition_missing f a : a_zs a = None -> f_N f <> 1%nat -> flash f a = Raises Composition_missing.
Proof. intros H1 H2. unfold flash, flash_zs. rewrite H1. apply Nat.eqb_neq in H2. now rewrite H2. Qed.
(* Whatever was given, an accepted call enforces at least two different specifications, each with a value given by the caller, and all the
   values that were kept are acceptable. *)
Theorem C34_accepted f zs a c backup : regular_call f zs a -> flash f a = Calls c backup ->
  call_zs c = zs /\ (2 <= length (enforces c))%nat /\ NoDup (map fst (enforces c)) /\ (forall p, In p (enforces c) -> In p (arguments f zs a) /\ acceptable f p).
Proof.
  intros HR. rewrite (flash_eq f zs a (proj1 HR)). destruct (flash_checks _ _ _ _ _ _) eqn:C; [discriminate|]. apply (proj1 (checks_kept f zs a)) in C. intros H. apply dispatch_sound in H. destruct H as (H1 & H2 & H3 & H4 & _).
  splits; auto. intros p Hp. apply H4 in Hp. split; [now apply kept_in|now apply C].
Qed.
(* with retry=True the second attempt keeps both specifications and only changes the iteration variable; there is none otherwise *)
Theorem C34_retry f zs a c c' : regular_call f zs a -> flash f a = Calls c (Some c') -> a_retry a = true /\ enforces c' = enforces c /\ call_zs c' = call_zs c /\ c' <> c.
Proof.
  intros HR. rewrite (flash_eq f zs a (proj1 HR)). destruct (flash_checks _ _ _ _ _ _) eqn:C; [discriminate|]. intros H. apply dispatch_sound in H. destruct H as (H1 & _ & _ & _ & H). destruct (H _ eq_refl) as (A & B & D & E). splits; auto. congruence.
Qed.
(* the variable iterated on is never one of the two that are specified *)
Theorem C34_iteration_variable f zs a x y u v w backup : regular_call f zs a -> flash f a = Calls (Call_TPV_HSGUA x y u v w zs) backup -> w <> u /\ w <> v /\ (forall c', backup = Some c' -> exists w', c' = Call_TPV_HSGUA x y u v w' zs /\ w' <> u /\ w' <> v /\ w' <> w).
Proof.
  intros HR. rewrite (flash_eq f zs a (proj1 HR)). destruct (flash_checks _ _ _ _ _ _) eqn:C; [discriminate|]. unfold flash_dispatch. cbv zeta.
  destruct (_ || _ && _); [discriminate|]. do 4 (destruct (_ && given _); [discriminate|]). destruct (given (a_VF a) && _). destruct (find _ _) as [[? ?]|]; discriminate.
  destruct (given (a_T a)), (given (a_P a)), (given (flash_V f a zs)), (given (flash_H f a zs)), (given (flash_mass f zs (a_S_mass a) (a_S a))), (given (flash_mass f zs (a_U_mass a) (a_U a))); cbn; try discriminate; intros [= <- <- <- <- <- <-]; splits; try discriminate; destruct (a_retry a); intros c' [= <-]; eexists; splits; try reflexivity; discriminate.
Qed.
(* ---- over-specified calls are not always refused ---- *)
Definition no_args : flash_args := Build_flash_args None None None None None None None None None None None false None None None None None None None None.
Definition water : flasher := Build_flasher 1 (fun _ => 18) (fun _ => -242000) 1 true true.
Definition with_TPV T P V : flash_args := Build_flash_args None (Some T) (Some P) None None (Some V) None None None None None false None None None None None None None None.
Theorem C34_T_P_V_refuted : exists T P V, flash water (with_TPV T P V) = Calls (Call_TPV (Some T) (Some P) (Some V) [1]) None.
Proof. exists 300, 100000, 1. unfold flash. cbn. unfold flash_checks. cbn. rewrite Rltb_false, !Rleb_false by lra. reflexivity. Qed.
(* an enthalpy given beside T and P is ignored *)
Theorem C34_T_P_H_refuted : exists T P H, flash water (Build_flash_args None (Some T) (Some P) None None None (Some H) None None None None false None None None None None None None None) = Calls (Call_TPV (Some T) (Some P) None [1]) None.
Proof. exists 300, 100000, 1. unfold flash. cbn. unfold flash_checks. cbn. rewrite Rltb_false, !Rleb_false by lra. reflexivity. Qed.
(* a volume given beside a vapor fraction and an enthalpy takes the place of the enthalpy *)
Theorem C34_VF_V_H_refuted : exists VF V H, flash water (Build_flash_args None None None (Some VF) None (Some V) (Some H) None None None None false None None None None None None None None) = Calls (Call_VF_HSGUA VF V vV [1]) None.
Proof. exists (1 / 2), 1, 1. unfold flash. cbn. unfold flash_checks. cbn. rewrite !Rltb_false, !Rleb_false by lra. reflexivity. Qed.
(* a molar density replaces a conflicting molar volume *)
Theorem C34_V_rho_refuted : exists T V rho, / rho <> V /\ flash water (Build_flash_args None (Some T) None None None (Some V) None None None None None false (Some rho) None None None None None None None) = Calls (Call_TPV (Some T) None (Some (1 / rho)) [1]) None.
Proof. exists 300, 1, 2. split; [lra|]. unfold flash. cbn. unfold flash_checks. cbn. rewrite Rltb_false, !Rleb_false by lra. reflexivity. Qed.
(* a Gibbs energy given beside T and H is ignored *)
Theorem C34_T_H_G_refuted : exists T H G, flash water (Build_flash_args None (Some T) None None None None (Some H) None (Some G) None None false None None None None None None None None) = Calls (Call_TPV_HSGUA T H vT vH vP [1]) None.
Proof. exists 300, 1, 1. unfold flash. cbn. unfold flash_checks. cbn. rewrite Rltb_false by lra. reflexivity. Qed.

(* ---- flash_phase_boundary: exactly one specification, with its value and two other iteration variables ---- *)
Theorem C34_phase_boundary T P V H S U : let l := arg vT T ++ arg vP P ++ arg vV V ++ arg vH H ++ arg vS S ++ arg vU U in
  (length l = 1%nat -> exists v x w w', flash_phase_boundary T P V H S U = inr (v, x, w, w') /\ l = [(v, x)] /\ w <> v /\ w' <> v /\ w <> w') /\
  (length l <> 1%nat -> flash_phase_boundary T P V H S U = inl Not_one_specification).
Proof.
  cbv zeta. unfold flash_phase_boundary. cbv zeta. destruct T, P, V, H, S, U; cbn; split; intros L; try lia; try (exfalso; apply L; reflexivity); try reflexivity; (do 4 eexists; split; [reflexivity|]; splits; try reflexivity; discriminate).
Qed.

Example C34_hypotheses_met : exists a p q, regular_call water [1] a /\ arguments water [1] a = [p; q] /\ supported (fst p) (fst q) = true /\ acceptable water p /\ acceptable water q /\ snd q = 1800.
Proof.
  exists (Build_flash_args None None (Some 100000) None None None None None None None None true None None (Some 100000) None None None None None), (vP, 100000), (vH, 1800).
  splits; try (cbn; auto; lra). split; [reflexivity|]. split; [cbn; lra|discriminate]. cbn. unfold molar_mass. cbn. repeat f_equal. field.
Qed.
