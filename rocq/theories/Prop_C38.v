(* C38: a property object evaluates the method that is selected, with the data supplied for it, whatever was evaluated before. *)
From Coq Require Import Reals Arith List Bool String Ascii Lra Lia FunctionalExtensionality.
From Verif Require Import Base BaseFacts Model_tdep TdepFacts Model_tdepobj.
Import ListNotations.
Open Scope R_scope.

Section C38.
Variable builtin : string -> option data.
Variables (lin spl : table -> R -> R).
Variable numder : (R -> option R) -> R -> option R -> nat -> R -> option R.
Variable numlog : (R -> option R) -> R -> option R -> R -> option R.
Variables (Tc : R) (emin emax : option R) (pmin pmax : R).
Notation property := (property builtin lin spl numder numlog Tc emin emax pmin pmax).
Notation call_value := (call_value builtin lin spl numder numlog Tc emin emax pmin pmax).
Notation view := (view builtin lin spl numder numlog).
Notation obj_calc := (obj_calc builtin lin spl).
Notation base_calc := (base_calc builtin lin spl).
Notation fill := (fill builtin lin spl numder numlog Tc emin emax pmin pmax).
Notation exec := (exec pmin pmax).

(* An object as its constructor leaves it: any built-in methods and correlations, nothing evaluated *)
Record initial (s : st) : Prop := {
  i_corr : forall n, find (corr s) n <> None -> In n (known s); i_builtin : forall n, builtin n <> None -> In n (known s); i_tab : forall n, find (tab s) n <> None -> In n (known s);
  i_loc : forall n, find (loc s) n <> None -> In n (known s); i_pw : forall n subs Ts, In (n, (subs, Ts)) (pw s) -> In n (known s) /\ subs <> [] /\ (forall m, In m subs -> In m (known s));
  i_meth : forall m, meth s = Some m -> In m (known s); i_icache : icache s = []; i_ccache : ccache s = []; i_called : called s = None }.
(* add_method and add_tabular_data are given names that are not in use (the other two operations check it themselves) *)
Definition new_name (s : st) (o : op) : Prop := match o with Add_method n _ _ _ | Add_tabular_data n _ _ _ => ~ In n (known s) | _ => True end.
(* every execution: operations, with their success, newest first, and evaluations in between *)
Inductive runs (s0 : st) : list (op * bool) -> st -> Prop :=
| runs_start : runs s0 [] s0
| runs_op h s o : runs s0 h s -> new_name s o -> runs s0 ((o, snd (exec s o)) :: h) (fst (exec s o))
| runs_eval h s s' : runs s0 h s -> fill s s' -> runs s0 h s'.
(* the same object with nothing remembered *)
Definition fresh (s : st) : st := with_called (with_ccache (with_icache s []) []) None.

(* names *)
Record wf (s : st) : Prop := {
  w_corr : forall n, find (corr s) n <> None -> In n (known s); w_builtin : forall n, builtin n <> None -> In n (known s); w_tab : forall n, find (tab s) n <> None -> In n (known s);
  w_loc : forall n, find (loc s) n <> None -> In n (known s); w_pw : forall n subs Ts, In (n, (subs, Ts)) (pw s) -> In n (known s) /\ subs <> [] /\ (forall m, In m subs -> In m (known s));
  w_meth : forall m, meth s = Some m -> In m (known s);
  w_icache : forall n t, find (icache s) n = Some t -> find (tab s) n = Some t;
  w_ccache : forall k n low cs, findk (ccache s) (k, n, low) = Some cs -> In n (known s) /\ get_coeffs (view s n) Tc (kind_of k) low = Some cs }.
(* s' has the sources of s under the names of s *)
Record keeps (s s' : st) : Prop := {
  k_corr : forall n, In n (known s) -> find (corr s') n = find (corr s) n; k_tab : forall n, In n (known s) -> find (tab s') n = find (tab s) n; k_loc : forall n, In n (known s) -> find (loc s') n = find (loc s) n;
  k_limits : forall n, In n (known s) -> find (limits s') n = find (limits s) n;
  k_pw : pw s' = pw s \/ exists n x, ~ In n (known s) /\ pw s' = (n, x) :: pw s;
  k_icache : forall n, In n (known s) -> (match find (icache s') n with Some t => Some t | None => find (tab s') n end) = (match find (icache s) n with Some t => Some t | None => find (tab s) n end);
  k_known : incl (known s) (known s') }.

Lemma find_cons {A} n m (x : A) l : m <> n -> find ((m, x) :: l) n = find l n.
Proof. intros. cbn. destruct (String.eqb_spec m n); congruence. Qed.
Lemma find_head {A} n (x : A) l : find ((n, x) :: l) n = Some x.
Proof. cbn. now rewrite String.eqb_refl. Qed.
Lemma mem_In n l : mem n l = true <-> In n l.
Proof. unfold mem. rewrite existsb_exists. split; [intros (x & A & B); apply String.eqb_eq in B; congruence|intros; exists n; split; auto; apply String.eqb_refl]. Qed.
Lemma mem_not n l : mem n l = false <-> ~ In n l.
Proof. rewrite <- mem_In. destruct (mem n l); intuition congruence. Qed.
Lemma in_pw_find n x l : In (n, x) l -> exists y : list string * list R, find l n = Some y.
Proof. induction l as [|[m y] l IH]; cbn; [tauto|]. intros [E|E]; [injection E as -> ->; rewrite String.eqb_refl; eauto|]. destruct (String.eqb m n); eauto. Qed.
Lemma find_in n (x : list string * list R) l : find l n = Some x -> In (n, x) l.
Proof. induction l as [|[m y] l IH]; cbn; [discriminate|]. destruct (String.eqb_spec m n); [intros E; injection E as ->; subst; auto|auto]. Qed.

Lemma base_keeps s s' n : wf s -> keeps s s' -> In n (known s) -> base_calc s' n = base_calc s n.
Proof.
  intros W K H. unfold Model_tdepobj.base_calc. rewrite (k_corr _ _ K n H), (k_loc _ _ K n H). pose proof (k_tab _ _ K n H) as E. pose proof (k_icache _ _ K n H) as C.
  rewrite E in *. destruct (find (corr s) n); auto. destruct (builtin n); auto. destruct (find (tab s) n) as [t|]; auto.
  destruct (find (icache s') n), (find (icache s) n); congruence.
Qed.
Lemma pick_in subs : forall Ts d T, In d subs \/ subs <> [] -> In (pick subs Ts d T) (d :: subs).
Proof.
  induction subs as [|x subs IH]; intros Ts d T H; cbn; [auto|]. destruct Ts as [|t Ts]; [auto|]. destruct (Rleb T t); [auto|].
  destruct subs as [|y subs]; [cbn; destruct Ts; auto|]. destruct (IH Ts x T ltac:(right; discriminate)); auto.
Qed.
Lemma last_In (l : list string) d : l <> [] -> In (last l d) l.
Proof. induction l as [|x l IH]; [congruence|]. intros _. destruct l; [now left|]. right. apply IH. discriminate. Qed.
Lemma pick_mem subs Ts T : subs <> [] -> In (pick subs Ts (last subs EmptyString) T) subs.
Proof. intros H. destruct (pick_in subs Ts (last subs EmptyString) T) as [E|E]; auto. rewrite <- E. now apply last_In. Qed.
Lemma pw_calc_ext b b' pws : (forall n subs Ts, In (n, (subs, Ts)) pws -> subs <> [] /\ forall m, In m subs -> b' m = b m) -> forall n T, pw_calc b' pws n T = pw_calc b pws n T.
Proof.
  induction pws as [|[n [subs Ts]] pws IH]; intros H m T; cbn; auto.
  assert (IH' := IH (fun n0 s0 T0 H0 => H n0 s0 T0 (or_intror H0))). destruct (String.eqb n m); auto.
  destruct (H n subs Ts (or_introl eq_refl)) as [N E]. rewrite E by now apply pick_mem. destruct (b _); auto.
Qed.
Lemma calc_keeps s s' n : wf s -> keeps s s' -> In n (known s) -> obj_calc s' n = obj_calc s n.
Proof.
  intros W K H. apply functional_extensionality. intros T. unfold Model_tdepobj.obj_calc. rewrite (base_keeps s s' n) by auto. destruct (base_calc s n); auto.
  assert (E : forall pws, incl pws (pw s) -> pw_calc (base_calc s') pws n T = pw_calc (base_calc s) pws n T).
  { intros pws I. apply pw_calc_ext. intros m subs Ts Hm. destruct (w_pw _ W m subs Ts (I _ Hm)) as (_ & A & B). split; auto. intros q Hq. apply base_keeps; auto. }
  destruct (k_pw _ _ K) as [->|(m & x & Hm & ->)]; [apply E, incl_refl|]. cbn. destruct x as [subs Ts]. destruct (String.eqb_spec m n) as [->|_]; [tauto|]. apply E, incl_refl.
Qed.
Lemma view_keeps s s' n : wf s -> keeps s s' -> In n (known s) -> view s' n = view s n.
Proof.
  intros W K H. pose proof (calc_keeps s s' n W K H) as C. unfold Model_tdepobj.view, obj_limits. rewrite C, (k_limits _ _ K n H). f_equal.
  apply functional_extensionality. intros o. apply functional_extensionality. intros T. unfold obj_der, obj_limits. now rewrite C, (k_limits _ _ K n H), (k_corr _ _ K n H), (k_loc _ _ K n H).
Qed.

Lemma keeps_refl s : keeps s s.
Proof. constructor; auto. apply incl_refl. Qed.
Ltac kp Hn := constructor; cbn; intros; auto; try (match goal with |- context [String.eqb ?a ?b] => destruct (String.eqb_spec a b); [subst; tauto|auto] end); try (apply incl_refl); try (apply incl_tl, incl_refl).
Lemma keeps_method s m : keeps s (with_method s m).
Proof. constructor; cbn; auto. apply incl_refl. Qed.
Lemma keeps_exec s o : wf s -> new_name s o -> keeps s (fst (exec s o)).
Proof.
  intros W N. destruct o as [n d a b|n d a b sel opt|n t chk sel|n subs Ts sel|m|e]; cbn [Model_tdepobj.exec] in *.
  - cbn in N. kp N.
  - destruct (mem n (known s)) eqn:E; [apply keeps_refl|]. apply mem_not in E. destruct opt; [destruct sel|]; cbn [fst]; kp E.
  - destruct (_ || _); [apply keeps_refl|]. cbn in N. destruct sel; cbn [fst]; constructor; cbn; intros; auto; try (destruct (String.eqb_spec n n0); [subst; tauto|auto]); try (apply incl_tl, incl_refl).
  - destruct (negb (forallb _ subs) || mem n (known s) || _ || _ || _) eqn:E; [apply keeps_refl|]. apply orb_false_elim in E as [E _]. apply orb_false_elim in E as [E _]. apply orb_false_elim in E as [E _]. apply orb_false_elim in E as [_ E]. apply mem_not in E.
    destruct sel; cbn [fst]; constructor; cbn; intros; auto; try (destruct (String.eqb_spec n n0); [subst; tauto|auto]); try (apply incl_tl, incl_refl); right; exists n, (subs, tl Ts); auto.
  - destruct m as [n|]; [destruct (mem n (known s))|]; cbn [fst]; try apply keeps_refl; apply keeps_method.
  - destruct e as [x|]; [destruct (split_bar x) as [|a [|b [|c l]]]|]; cbn [fst]; constructor; cbn; auto; apply incl_refl.
Qed.
Lemma keeps_fill s s' : wf s -> fill s s' -> keeps s s'.
Proof.
  intros W F. destruct F as [s n t A B|s k n low cs A B C|s T A]; constructor; cbn; intros; auto; try apply incl_refl.
  destruct (String.eqb_spec n n0) as [->|]; auto. now rewrite A, B.
Qed.
Lemma ccache_exec s o : ccache (fst (exec s o)) = ccache s.
Proof.
  destruct o as [n d a b|n d a b sel opt|n t chk sel|n subs Ts sel|m|e]; cbn [Model_tdepobj.exec]; auto.
  - destruct (mem n (known s)); auto. destruct opt; auto. destruct sel; auto.
  - destruct (_ || _); auto. destruct sel; auto.
  - destruct (negb (forallb _ subs) || mem n (known s) || _ || _ || _); auto. destruct sel; auto.
  - destruct m as [n|]; [destruct (mem n (known s))|]; auto.
  - destruct e as [x|]; [destruct (split_bar x) as [|a [|b [|c l]]]|]; auto.
Qed.
Lemma icache_exec s o : icache (fst (exec s o)) = icache s.
Proof.
  destruct o as [n d a b|n d a b sel opt|n t chk sel|n subs Ts sel|m|e]; cbn [Model_tdepobj.exec]; auto.
  - destruct (mem n (known s)); auto. destruct opt; auto. destruct sel; auto.
  - destruct (_ || _); auto. destruct sel; auto.
  - destruct (negb (forallb _ subs) || mem n (known s) || _ || _ || _); auto. destruct sel; auto.
  - destruct m as [n|]; [destruct (mem n (known s))|]; auto.
  - destruct e as [x|]; [destruct (split_bar x) as [|a [|b [|c l]]]|]; auto.
Qed.
(* names of an object are all registered *)
Definition registered (s : st) : Prop := (forall n, find (corr s) n <> None -> In n (known s)) /\ (forall n, builtin n <> None -> In n (known s)) /\ (forall n, find (tab s) n <> None -> In n (known s)) /\
  (forall n, find (loc s) n <> None -> In n (known s)) /\ (forall n subs Ts, In (n, (subs, Ts)) (pw s) -> In n (known s) /\ subs <> [] /\ (forall m, In m subs -> In m (known s))) /\ (forall m, meth s = Some m -> In m (known s)).
Lemma registered_method s m : registered s -> (forall n, m = Some n -> In n (known s)) -> registered (with_method s m).
Proof. intros (A & B & C & D & E & F) H. unfold registered; cbn. auto 10. Qed.
Lemma registered_exec s o : registered s -> registered (fst (exec s o)).
Proof.
  intros (A & B & C & D & E & F). assert (R : registered s) by (unfold registered; auto 10).
  assert (PW : forall k n subs Ts, In (n, (subs, Ts)) (pw s) -> In n (k :: known s) /\ subs <> [] /\ (forall m, In m subs -> In m (k :: known s))).
  { intros k n subs Ts H. destruct (E n subs Ts H) as (X & Y & Z). cbn. auto. }
  destruct o as [n d a b|n d a b sel opt|n t chk sel|n subs Ts sel|m|e]; cbn [Model_tdepobj.exec].
  - unfold registered; cbn -[In]; splits; intros.
    + right. apply A; auto.
    + right. auto.
    + right. auto.
    + destruct (String.eqb_spec n n0); [subst; now left|right; auto].
    + eauto.
    + injection H as ->. now left.
  - destruct (mem n (known s)); auto.
    assert (G : registered {| corr := (n, d) :: corr s; tab := tab s; loc := loc s; pw := pw s; limits := (n, (a, Some b)) :: limits s; known := n :: known s; meth := meth s; e_whole := e_whole s; e_lo := e_lo s; e_hi := e_hi s; icache := icache s; ccache := ccache s; called := called s |}).
    { unfold registered; cbn -[In]; splits; intros; try (right; auto; fail); eauto. destruct (String.eqb_spec n n0); [subst; now left|right; auto]. }
    destruct opt; auto. destruct sel; auto. apply registered_method; auto. intros m Hm. injection Hm as <-. now left.
  - destruct (_ || _); auto.
    assert (G : registered {| corr := corr s; tab := (n, t) :: tab s; loc := loc s; pw := pw s; limits := (n, (first_T t, Some (last_T t))) :: limits s; known := n :: known s; meth := meth s; e_whole := e_whole s; e_lo := e_lo s; e_hi := e_hi s; icache := icache s; ccache := ccache s; called := called s |}).
    { unfold registered; cbn -[In]; splits; intros; try (right; auto; fail); eauto. destruct (String.eqb_spec n n0); [subst; now left|right; auto]. }
    destruct sel; auto. apply registered_method; auto. intros m Hm. injection Hm as <-. now left.
  - destruct (negb (forallb _ subs) || mem n (known s) || _ || _ || _) eqn:X; auto.
    apply orb_false_elim in X as [X L0]. apply orb_false_elim in X as [X _]. apply orb_false_elim in X as [X _]. apply orb_false_elim in X as [X _]. apply negb_false_iff in X. rewrite forallb_forall in X.
    assert (G : registered {| corr := corr s; tab := tab s; loc := loc s; pw := (n, (subs, tl Ts)) :: pw s; limits := (n, (hd 0 Ts, Some (last Ts 0))) :: limits s; known := n :: known s; meth := meth s; e_whole := e_whole s; e_lo := e_lo s; e_hi := e_hi s; icache := icache s; ccache := ccache s; called := called s |}).
    { unfold registered; cbn -[In]; splits; intros; try (right; auto; fail); eauto. destruct H as [H|H]; [injection H as <- <- <-|eauto]. splits; [now left| |].
      - intros ->. discriminate.
      - intros m Hm. right. apply mem_In. now apply X. }
    destruct sel; auto. apply registered_method; auto. intros m Hm. injection Hm as <-. now left.
  - destruct m as [n|]; [destruct (mem n (known s)) eqn:X|]; auto; apply registered_method; auto; intros k Hk; [|discriminate]. injection Hk as <-. now apply mem_In.
  - destruct e as [x|]; [destruct (split_bar x) as [|a [|b [|c l]]]|]; auto.
Qed.
Lemma wf_registered s : wf s -> registered s.
Proof. intros []. unfold registered. auto 10. Qed.
Lemma icache_keys s : wf s -> forall n t, find (icache s) n = Some t -> In n (known s).
Proof. intros W n t H. apply (w_tab _ W). rewrite (w_icache _ W n t H). discriminate. Qed.
Lemma wf_exec s o : wf s -> new_name s o -> wf (fst (exec s o)).
Proof.
  intros W N. pose proof (keeps_exec s o W N) as K. destruct (registered_exec s o (wf_registered s W)) as (A & B & C & D & E & F). constructor; auto.
  - intros n t. rewrite icache_exec. intros H. rewrite (k_tab _ _ K) by (eapply icache_keys; eauto). now apply (w_icache _ W).
  - intros k n low cs. rewrite ccache_exec. intros H. destruct (w_ccache _ W k n low cs H) as [X Y]. split; [now apply (k_known _ _ K)|]. now rewrite (view_keeps s _ n W K X).
Qed.
Lemma key_eqb_spec a b : reflect (a = b) (key_eqb a b).
Proof.
  destruct a as [[x y] z], b as [[u v] w]. unfold key_eqb. destruct (String.eqb_spec x u), (String.eqb_spec y v), (Bool.eqb_spec z w); cbn; constructor; congruence.
Qed.
Lemma wf_fill s s' : wf s -> fill s s' -> wf s'.
Proof.
  intros W F. pose proof (keeps_fill s s' W F) as K. pose proof W as W'. destruct W' as [A B C D E G I J].
  assert (V : forall n, In n (known s) -> view s' n = view s n) by (intros; now apply view_keeps).
  destruct F as [s n t X Y|s k n low cs X Y Z|s T X]; constructor; cbn [corr tab loc pw limits known meth icache ccache with_icache with_ccache with_called find findk]; auto.
  - intros m u. destruct (String.eqb_spec n m) as [->|]; [intros H; congruence|apply I].
  - intros k m low cs H. destruct (J k m low cs H) as [P Q]. split; [auto|]. now rewrite V.
  - intros k' m low' cs'. destruct (key_eqb_spec (k, n, low) (k', m, low')) as [H|H].
    + injection H as E1 E2 E3. subst k' m low'. intros H. injection H as E4. subst cs'. split; [auto|]. rewrite V; auto.
    + intros H'. destruct (J k' m low' cs' H') as [P Q]. split; [auto|]. now rewrite V.
Qed.
Lemma wf_initial s : initial s -> wf s.
Proof. intros []. constructor; auto; [rewrite i_icache0|rewrite i_ccache0]; intros; discriminate. Qed.
Lemma wf_runs s0 h s : initial s0 -> runs s0 h s -> wf s.
Proof. intros I R. induction R; [now apply wf_initial|now apply wf_exec|eapply wf_fill; eauto]. Qed.
Lemma view_fresh s n : wf s -> view (fresh s) n = view s n.
Proof.
  intros W. assert (B : forall n, base_calc (fresh s) n = base_calc s n).
  { intros m. unfold Model_tdepobj.base_calc. cbn. destruct (find (corr s) m); auto. destruct (builtin m); auto. destruct (find (tab s) m) as [t|] eqn:E; auto.
    destruct (find (icache s) m) as [t0|] eqn:C; auto. apply (w_icache _ W) in C. congruence. }
  assert (C : obj_calc (fresh s) n = obj_calc s n).
  { apply functional_extensionality. intros T. unfold Model_tdepobj.obj_calc. rewrite B. destruct (base_calc s n); auto. replace (base_calc (fresh s)) with (base_calc s); [reflexivity|]. symmetry. now apply functional_extensionality. }
  unfold Model_tdepobj.view. change (obj_limits (fresh s) n) with (obj_limits s n). rewrite C. f_equal.
  apply functional_extensionality. intros o. apply functional_extensionality. intros T. unfold obj_der. rewrite C. reflexivity.
Qed.
Lemma property_view s s' T : meth s' = meth s -> (forall m, meth s = Some m -> find (limits s') m = find (limits s) m /\ view s' m = view s m /\ forall k low, obj_coeffs builtin lin spl numder numlog Tc s' k m low = obj_coeffs builtin lin spl numder numlog Tc s k m low) ->
  e_whole s' = e_whole s -> e_lo s' = e_lo s -> e_hi s' = e_hi s -> property s' T = property s T.
Proof.
  intros M H E1 E2 E3. unfold Model_tdepobj.property. rewrite M. destruct (meth s) as [m|]; auto. destruct (H m eq_refl) as (L & V & C). rewrite L, V. destruct (find (limits s) m); auto.
  change (obj_calc s' m T) with (calc (view s' m) T). rewrite V. change (calc (view s m) T) with (obj_calc s m T). destruct (inside _ _); auto. rewrite E1. destruct (e_whole s); auto. unfold obj_extrapolate. rewrite V, E2, E3.
  destruct (side _ _ _) as [low|]; auto. destruct (if low then e_lo s else e_hi s); auto. now rewrite C.
Qed.
Lemma coeffs_wf s k m low : wf s -> obj_coeffs builtin lin spl numder numlog Tc s k m low = get_coeffs (view s m) Tc (kind_of k) low.
Proof. intros W. unfold obj_coeffs. destruct (findk (ccache s) (k, m, low)) as [cs|] eqn:E; auto. apply (w_ccache _ W) in E as [_ E]. congruence. Qed.

(* After any history of operations and evaluations the property is the one of the same object with all that was remembered forgotten *)
Theorem C38_history_independent s0 h s T : initial s0 -> runs s0 h s -> property s T = property (fresh s) T.
Proof.
  intros I R. pose proof (wf_runs s0 h s I R) as W. symmetry. apply property_view; auto. intros m Hm. splits; [reflexivity|now apply view_fresh|].
  intros k low. rewrite (coeffs_wf s k m low W). unfold obj_coeffs. cbn [ccache fresh with_called with_ccache findk]. rewrite view_fresh by exact W. reflexivity.
Qed.
(* Evaluations do not change what later evaluations return *)
Theorem C38_evaluation_has_no_effect s0 h s s' T : initial s0 -> runs s0 h s -> fill s s' -> property s' T = property s T.
Proof.
  intros I R F. pose proof (wf_runs s0 h s I R) as W. pose proof (wf_fill s s' W F) as W'. pose proof (keeps_fill s s' W F) as K.
  apply property_view; [destruct F; reflexivity| |destruct F; reflexivity|destruct F; reflexivity|destruct F; reflexivity].
  intros m Hm. pose proof (w_meth _ W m Hm) as Hk. splits; [now apply (k_limits _ _ K)|now apply view_keeps|]. intros k low. rewrite !coeffs_wf by auto. now rewrite (view_keeps s s' m).
Qed.
(* The selected method is the one selected last *)
Fixpoint selected (h : list (op * bool)) (m0 : option string) : option string :=
  match h with
  | [] => m0
  | (o, ok) :: h' => if negb ok then selected h' m0 else
    match o with Add_method n _ _ _ => Some n | Select m => m | Add_correlation n _ _ _ sel _ | Add_tabular_data n _ _ sel | Add_piecewise_method n _ _ sel => if sel then Some n else selected h' m0 | Set_extrapolation _ => selected h' m0 end
  end.
Theorem C38_selected s0 h s : runs s0 h s -> meth s = selected h (meth s0).
Proof.
  intros R. induction R as [|h s o R IH N|h s s' R IH F]; [reflexivity| |rewrite <- IH; destruct F; reflexivity].
  cbn [selected]. rewrite <- IH. clear. destruct o as [n d a b|n d a b sel opt|n t chk sel|n subs Ts sel|m|e]; cbn [Model_tdepobj.exec].
  - reflexivity.
  - destruct (mem n (known s)); [reflexivity|]. destruct opt; [destruct sel|]; reflexivity.
  - destruct (_ || _); [reflexivity|]. destruct sel; reflexivity.
  - destruct (negb (forallb _ subs) || mem n (known s) || _ || _ || _); [reflexivity|]. destruct sel; reflexivity.
  - destruct m as [n|]; [destruct (mem n (known s))|]; reflexivity.
  - destruct e as [x|]; [destruct (split_bar x) as [|a [|b [|c l]]]|]; reflexivity.
Qed.
(* Sources never change later *)
Inductive later (s : st) : st -> Prop :=
| later_now : later s s
| later_op s1 o : later s s1 -> new_name s1 o -> later s (fst (exec s1 o))
| later_eval s1 s2 : later s s1 -> fill s1 s2 -> later s s2.
Lemma later_keeps s s' : wf s -> later s s' -> wf s' /\ incl (known s) (known s') /\ forall n, In n (known s) -> view s' n = view s n /\ find (limits s') n = find (limits s) n.
Proof.
  intros W L. induction L as [|s1 o L (W1 & I1 & V1) N|s1 s2 L (W1 & I1 & V1) F]; [splits; auto using incl_refl| |].
  - pose proof (keeps_exec s1 o W1 N) as K. splits; [now apply wf_exec|eapply incl_tran; [exact I1|apply (k_known _ _ K)]|]. intros n Hn. destruct (V1 n Hn) as [X Y]. specialize (I1 n Hn). rewrite <- X, <- Y. split; [now apply view_keeps|now apply (k_limits _ _ K)].
  - pose proof (keeps_fill s1 s2 W1 F) as K. splits; [eapply wf_fill; eauto|eapply incl_tran; [exact I1|apply (k_known _ _ K)]|]. intros n Hn. destruct (V1 n Hn) as [X Y]. specialize (I1 n Hn). rewrite <- X, <- Y. split; [now apply view_keeps|now apply (k_limits _ _ K)].
Qed.
Lemma property_inside s n T : meth s = Some n -> find (limits s) n <> None -> inside (view s n) T = true -> property s T = checked pmin pmax (calc (view s n) T).
Proof. intros M L I. unfold Model_tdepobj.property. rewrite M, I. destruct (find (limits s) n); [reflexivity|congruence]. Qed.
Lemma later_value s1 s2 n T : wf s1 -> In n (known s1) -> later s1 s2 -> meth s2 = Some n -> find (limits s1) n <> None -> inside (view s1 n) T = true -> property s2 T = checked pmin pmax (calc (view s1 n) T).
Proof. intros W K L M F I. destruct (later_keeps s1 s2 W L) as (W2 & _ & V). destruct (V n K) as [X Y]. rewrite (property_inside s2 n T); auto; congruence. Qed.
(* Inside its limits the selected method gives the data that were supplied for it, however long ago: the function of add_method, *)
Theorem C38_local s0 h s n d Tmin Tmax s2 T : initial s0 -> runs s0 h s -> ~ In n (known s) -> later (fst (exec s (Add_method n d Tmin Tmax))) s2 -> meth s2 = Some n ->
  dflt Tmin 0 <= T -> (forall b, Tmax = Some b -> T <= b) -> property s2 T = checked pmin pmax (d_f d T).
Proof.
  intros I R N L M H1 H2. pose proof (wf_runs s0 h s I R) as W. pose proof (wf_registered s W) as (A & B & C & D & E & F).
  pose proof (wf_exec s (Add_method n d Tmin Tmax) W N) as W1. cbn [Model_tdepobj.exec fst] in *.
  rewrite (later_value _ _ n T W1); auto.
  - f_equal. cbn. unfold Model_tdepobj.obj_calc, Model_tdepobj.base_calc. cbn. rewrite String.eqb_refl.
    destruct (find (corr s) n) eqn:X1; [exfalso; apply N, A; congruence|]. destruct (builtin n) eqn:X2; [exfalso; apply N, B; congruence|]. destruct (find (tab s) n) eqn:X3; [exfalso; apply N, C; congruence|]. reflexivity.
  - now left.
  - cbn. rewrite String.eqb_refl. discriminate.
  - unfold inside; cbn; unfold obj_limits; cbn; rewrite String.eqb_refl; cbn. rewrite Rleb_true by auto. destruct Tmax; cbn; auto. apply Rleb_true; auto.
Qed.
(* the correlation of add_correlation, *)
Theorem C38_correlation s0 h s n d Tmin Tmax sel ok s2 T : initial s0 -> runs s0 h s -> ~ In n (known s) -> later (fst (exec s (Add_correlation n d Tmin Tmax sel ok))) s2 -> meth s2 = Some n ->
  Tmin <= T <= Tmax -> property s2 T = checked pmin pmax (d_f d T).
Proof.
  intros I R N L M H. pose proof (wf_runs s0 h s I R) as W. pose proof (proj2 (mem_not n (known s)) N) as E. pose proof (wf_exec s (Add_correlation n d Tmin Tmax sel ok) W Logic.I) as W1.
  cbn [Model_tdepobj.exec] in *. rewrite E in *.
  rewrite (later_value _ _ n T W1); auto.
  - f_equal. destruct ok; [destruct sel|]; cbn; unfold Model_tdepobj.obj_calc, Model_tdepobj.base_calc; cbn; now rewrite String.eqb_refl.
  - destruct ok; [destruct sel|]; now left.
  - destruct ok; [destruct sel|]; cbn; rewrite String.eqb_refl; discriminate.
  - destruct ok; [destruct sel|]; unfold inside; cbn; unfold obj_limits; cbn; rewrite String.eqb_refl; cbn; now rewrite !Rleb_true by apply H.
Qed.
(* the interpolated table of add_tabular_data, *)
Theorem C38_tabular s0 h s n t chk sel s2 T : initial s0 -> runs s0 h s -> ~ In n (known s) -> snd (exec s (Add_tabular_data n t chk sel)) = true -> later (fst (exec s (Add_tabular_data n t chk sel))) s2 -> meth s2 = Some n ->
  first_T t <= T <= last_T t -> property s2 T = checked pmin pmax (Some (if (List.length t <? 5)%nat then lin t T else spl t T)).
Proof.
  assert (EI : first_T t <= T <= last_T t -> interpolate lin spl t t T = Some (if (List.length t <? 5)%nat then lin t T else spl t T)).
  { intros [A B]. unfold Model_tdepobj.interpolate. rewrite !Rltb_false by lra. cbn [orb]. now destruct (_ <? _)%nat. }
  intros I R N OK L M H. rewrite <- (EI H). pose proof (wf_runs s0 h s I R) as W. pose proof (wf_registered s W) as (A & B & C & D & E & F). pose proof (wf_exec s (Add_tabular_data n t chk sel) W N) as W1.
  assert (IC : find (icache s) n = None). { destruct (find (icache s) n) eqn:X; auto. exfalso. apply N. eapply icache_keys; eauto. }
  cbn [Model_tdepobj.exec] in *. destruct (_ || _); [discriminate|].
  rewrite (later_value _ _ n T W1); auto.
  - f_equal. destruct sel; cbn; unfold Model_tdepobj.obj_calc, Model_tdepobj.base_calc; cbn; rewrite String.eqb_refl, IC;
    (destruct (find (corr s) n) eqn:X1; [exfalso; apply N, A; congruence|]; destruct (builtin n) eqn:X2; [exfalso; apply N, B; congruence|]; reflexivity).
  - destruct sel; now left.
  - destruct sel; cbn; rewrite String.eqb_refl; discriminate.
  - destruct sel; unfold inside; cbn; unfold obj_limits; cbn; rewrite String.eqb_refl; cbn; now rewrite !Rleb_true by apply H.
Qed.
Lemma pick_nth : forall subs Ts d T, subs <> [] -> List.length Ts = List.length subs -> T <= last Ts 0 -> exists i, (i < List.length subs)%nat /\ T <= nth i Ts 0 /\ (forall j, (j < i)%nat -> nth j Ts 0 < T) /\ pick subs Ts d T = nth i subs EmptyString.
Proof.
  induction subs as [|x subs IH]; intros Ts d T N L H; [congruence|]. destruct Ts as [|t Ts]; [discriminate|]. cbn [pick]. destruct (Rleb_spec T t) as [E|E].
  - exists 0%nat. cbn. splits; auto; try lia. 
  - injection L as L. destruct subs as [|y subs].
    + destruct Ts; [|discriminate]. cbn in H. lra.
    + destruct Ts as [|t2 Ts]; [discriminate|]. destruct (IH (t2 :: Ts) x T ltac:(discriminate) L H) as (i & A & B & C & D). exists (S i). splits; [cbn in *; lia|exact B| |exact D].
      intros [|j] Hj; [cbn; lra|]. apply C. lia.
Qed.
(* and for a piecewise method the method given for the range that T is in *)
Theorem C38_piecewise s0 h s n subs Ts sel s2 T : initial s0 -> runs s0 h s -> snd (exec s (Add_piecewise_method n subs Ts sel)) = true -> later (fst (exec s (Add_piecewise_method n subs Ts sel))) s2 -> meth s2 = Some n ->
  hd 0 Ts <= T <= last Ts 0 -> exists i, (i < List.length subs)%nat /\ T <= nth (S i) Ts 0 /\ (forall j, (j < i)%nat -> nth (S j) Ts 0 < T) /\ property s2 T = checked pmin pmax (obj_calc s (nth i subs EmptyString) T).
Proof.
  intros I Run OK L M H. pose proof (wf_runs s0 h s I Run) as W. pose proof (wf_registered s W) as (A & B & C & D & E & F). pose proof (wf_exec s (Add_piecewise_method n subs Ts sel) W Logic.I) as W1.
  pose proof (keeps_exec s (Add_piecewise_method n subs Ts sel) W Logic.I) as K.
  cbn [Model_tdepobj.exec] in *. destruct (negb (forallb _ subs) || mem n (known s) || _ || _ || _) eqn:X; [discriminate|].
  apply orb_false_elim in X as [X L0]. apply orb_false_elim in X as [X _]. apply orb_false_elim in X as [X LEN]. apply orb_false_elim in X as [X N]. apply negb_false_iff, Nat.eqb_eq in LEN. apply negb_false_iff in X. rewrite forallb_forall in X. apply mem_not in N.
  assert (NE : subs <> []) by (intros ->; discriminate). 
  assert (PN : exists i, (i < List.length subs)%nat /\ T <= nth i (tl Ts) 0 /\ (forall j, (j < i)%nat -> nth j (tl Ts) 0 < T) /\ pick subs (tl Ts) (last subs EmptyString) T = nth i subs EmptyString).
  { destruct Ts as [|t0 Ts]; [cbn in LEN; lia|]. cbn in LEN. apply pick_nth; [auto|cbn; lia|]. cbn [tl]. destruct Ts; [destruct subs; [congruence|cbn in LEN; lia]|]. apply H. }
  destruct PN as (i & P1 & P2 & P3 & P4). exists i. destruct Ts as [|t0 Ts]; [cbn in LEN; lia|]. cbn [tl nth] in *. splits; auto. rewrite <- P4. cbn [tl] in *.
  assert (HM : In (pick subs Ts (last subs EmptyString) T) (known s)) by (apply mem_In, X; now apply pick_mem).
  rewrite (later_value _ _ n T W1); auto.
  - f_equal. set (m := pick subs Ts (last subs EmptyString) T) in *.
    assert (BN : forall n0 : string, n0 = n -> find (corr s) n = None /\ builtin n = None /\ find (tab s) n = None /\ find (loc s) n = None).
    { intros _ _. splits; [destruct (find (corr s) n) eqn:Q; auto; exfalso; apply N, A; congruence|destruct (builtin n) eqn:Q; auto; exfalso; apply N, B; congruence|destruct (find (tab s) n) eqn:Q; auto; exfalso; apply N, C; congruence|destruct (find (loc s) n) eqn:Q; auto; exfalso; apply N, D; congruence]. }
    destruct (BN n eq_refl) as (B1 & B2 & B3 & B4).
    destruct sel; cbn [calc Model_tdepobj.view]; unfold Model_tdepobj.obj_calc at 1;
    (replace (base_calc _ n) with (@None (R -> option R)) by (unfold Model_tdepobj.base_calc; cbn; now rewrite B1, B2, B3, B4));
    cbn [fst pw with_method pw_calc]; rewrite String.eqb_refl; fold m; cbv zeta; unfold Model_tdepobj.obj_calc; reflexivity.
  - destruct sel; now left.
  - destruct sel; cbn; rewrite String.eqb_refl; discriminate.
  - destruct sel; unfold inside; cbn; unfold obj_limits; cbn; rewrite String.eqb_refl; cbn; now rewrite !Rleb_true by apply H.
Qed.
(* Calling the object, which remembers the last value, agrees with T_dependent_property when the extrapolation is not changed on the way *)
Theorem C38_call s0 h s T : initial s0 -> runs s0 h s -> (forall e ok, ~ In (Set_extrapolation e, ok) h) -> call_value s T = property s T.
Proof.
  intros I R NE.
  assert (C : forall T0 v, called s = Some (T0, v) -> v = property s T0).
  { revert NE. induction R as [|h s o R IH N|h s s' R IH F]; intros NE T0 v H.
    - rewrite (i_called _ I) in H. discriminate.
    - pose proof (wf_runs s0 h s I R) as W. pose proof (keeps_exec s o W N) as K. pose proof (wf_exec s o W N) as W'.
      specialize (IH (fun e ok Hin => NE e ok (or_intror Hin))).
      assert (G : called (fst (exec s o)) = called s -> meth (fst (exec s o)) = meth s -> e_whole (fst (exec s o)) = e_whole s -> e_lo (fst (exec s o)) = e_lo s -> e_hi (fst (exec s o)) = e_hi s -> v = property (fst (exec s o)) T0).
      { intros G1 G2 G3 G4 G5. rewrite G1 in H. rewrite (IH _ _ H). symmetry. apply property_view; auto. intros m Hm. pose proof (w_meth _ W m Hm) as Hk. splits; [now apply (k_limits _ _ K)|now apply view_keeps|]. intros k low. rewrite !coeffs_wf by auto. now rewrite (view_keeps s _ m W K Hk). }
      destruct o as [n d a b|n d a b sel opt|n t chk sel|n subs Ts sel|m|e]; cbn [Model_tdepobj.exec] in *.
      + discriminate H.
      + destruct (mem n (known s)); [auto|]. destruct opt; [destruct sel|]; auto. discriminate H.
      + destruct (_ || _); [auto|]. destruct sel; auto. discriminate H.
      + destruct (negb (forallb _ subs) || mem n (known s) || _ || _ || _); [auto|]. destruct sel; auto. discriminate H.
      + destruct m as [n|]; [destruct (mem n (known s))|]; auto; discriminate H.
      + exfalso. eapply (NE e). now left.
    - rewrite (C38_evaluation_has_no_effect s0 h s s' T0 I R F). specialize (IH NE). destruct F; cbn in H; auto. injection H as <- <-. reflexivity. }
  unfold Model_tdepobj.call_value. destruct (called s) as [[T0 v]|] eqn:E; auto. destruct (Reqb_spec T T0) as [->|]; auto.
Qed.
(* Outside the limits it is the extrapolation (C36) of those data, whatever was evaluated before *)
(* the extrapolation a name stands for *)
Definition extrapolation_names : list (string * ext) := [("linear", LINEAR); ("log(linear)", LOG_LINEAR); ("Arrhenius", ARRHENIUS); ("constant", CONSTANT); ("nolimit", NOLIMIT); ("AntoineAB", ANTOINE_AB);
  ("DIPPR101_ABC", DIPPR101_ABC); ("Watson", WATSON); ("EXP_POLY_LN_TAU2", EXP_POLY_LN_TAU2); ("EXP_POLY_LN_TAU3", EXP_POLY_LN_TAU3); ("DIPPR106_AB", DIPPR106_AB); ("DIPPR106_ABC", DIPPR106_ABC)]%string.
Definition stands_for (k : string) (e : ext) : Prop := In (k, e) extrapolation_names \/ (e = UNKNOWN /\ ~ In k (map fst extrapolation_names)).
Lemma kind_stands k e : stands_for k e -> kind_of k = e.
Proof.
  intros [H|[-> H]].
  - unfold extrapolation_names in H. repeat (destruct H as [H|H]; [injection H as <- <-; reflexivity|]). destruct H.
  - unfold kind_of. cbn [extrapolation_names map fst] in H. repeat (match goal with |- context[String.eqb k ?x] => destruct (String.eqb_spec k x) as [->|_]; [exfalso; apply H; cbn; tauto|] end). reflexivity.
Qed.
Theorem C38_extrapolation s0 h s n klo khi elo ehi T : initial s0 -> runs s0 h s -> meth s = Some n -> find (limits s) n <> None -> e_lo s = Some klo -> e_hi s = Some khi ->
  stands_for klo elo -> stands_for khi ehi ->
  property s T = T_dependent_property pmin pmax (match e_whole s with Some _ => true | None => false end) {| e_low := elo; e_high := ehi; Model_tdep.Tc := Tc; e_min := emin; e_max := emax |} (view s n) T.
Proof.
  intros I R M L E1 E2 N1 N2. apply kind_stands in N1. apply kind_stands in N2. subst elo ehi. pose proof (wf_runs s0 h s I R) as W. unfold Model_tdepobj.property, T_dependent_property. rewrite M. destruct (find (limits s) n); [|congruence]. unfold checked.
  change (calc (view s n) T) with (obj_calc s n T). destruct (inside (view s n) T); [reflexivity|]. destruct (e_whole s); [|reflexivity]. unfold obj_extrapolate, extrapolate. cbn [e_low e_high Model_tdep.Tc e_min e_max].
  destruct (side (view s n) IR_error T) as [low|]; [|reflexivity]. rewrite E1, E2. destruct low; rewrite coeffs_wf by exact W; reflexivity.
Qed.
(* What add_tabular_data and add_piecewise_method accept; otherwise the object stays as it was *)
Definition nondecreasing (l : list R) : Prop := forall i j, (i <= j < List.length l)%nat -> nth i l 0 <= nth j l 0.
Lemma sorted_le_spec l : sorted_le l = true <-> nondecreasing l.
Proof.
  induction l as [|x l IH]; [split; [intros _ i j H; cbn in H; lia|reflexivity]|]. cbn [sorted_le]. destruct l as [|y l].
  - split; [intros _ i j H; cbn in H; replace i with 0%nat by lia; replace j with 0%nat by lia; apply Rle_refl|reflexivity].
  - rewrite andb_true_iff, IH. split.
    + intros [H1 H2] i j H. destruct (Rleb_spec x y) as [H3|]; [|discriminate H1]. destruct i as [|i], j as [|j]; cbn [nth]; try lra; try lia.
      * apply Rle_trans with y; auto. apply (H2 0%nat j). cbn in *. lia.
      * apply (H2 i j). cbn in *. lia.
    + intros H. split; [apply Rleb_true, (H 0%nat 1%nat); cbn; lia|]. intros i j Hij. apply (H (S i) (S j)). cbn in *. lia.
Qed.
Theorem C38_tabular_accepted s n t chk sel : snd (exec s (Add_tabular_data n t chk sel)) = true <-> t <> [] /\ nondecreasing (map fst t) /\ (chk = true -> List.Forall (fun r => pmin <= snd r <= pmax) t).
Proof.
  assert (V : forall v, valid pmin pmax v = true <-> pmin <= v <= pmax). { intros v. unfold valid. destruct (Rltb_spec v pmin); [split; [discriminate|lra]|]. destruct (Rltb_spec pmax v); [split; [discriminate|lra]|]. split; [lra|auto]. }
  cbn [Model_tdepobj.exec]. rewrite <- sorted_le_spec. destruct (sorted_le (map fst t)); [|rewrite orb_true_r; cbn; split; [discriminate|intros (_ & H & _); discriminate H]].
  cbn [negb]. rewrite orb_false_r. destruct t as [|r t]; [rewrite orb_true_r; cbn; split; [discriminate|intros (H & _); congruence]|]. rewrite orb_false_r.
  destruct chk; cbn [andb].
  - destruct (forallb _ (r :: t)) eqn:E; cbn [negb snd].
    + rewrite forallb_forall in E. split; auto. intros _. splits; auto; [discriminate|]. intros _. apply List.Forall_forall. intros q Hq. apply V. now apply E.
    + split; [discriminate|]. intros (_ & _ & H). specialize (H eq_refl). rewrite List.Forall_forall in H. apply not_true_iff_false in E. exfalso. apply E. apply forallb_forall. intros q Hq. apply V. now apply H.
  - cbn [snd]. split; auto. intros _. splits; auto; discriminate.
Qed.
Theorem C38_piecewise_accepted s n subs Ts sel : snd (exec s (Add_piecewise_method n subs Ts sel)) = true <-> subs <> [] /\ (forall m, In m subs -> In m (known s)) /\ ~ In n (known s) /\ (List.length Ts = S (List.length subs)) /\ nondecreasing Ts.
Proof.
  cbn [Model_tdepobj.exec]. rewrite <- sorted_le_spec.
  assert (K : forallb (fun m => mem m (known s)) subs = true <-> forall m, In m subs -> In m (known s)). { rewrite forallb_forall. split; intros H m Hm; specialize (H m Hm); now apply mem_In. }
  destruct (forallb _ subs); [|cbn; split; [discriminate|intros (_ & H & _); apply K in H; discriminate H]]. cbn [negb orb].
  destruct (mem n (known s)) eqn:M; [cbn; split; [discriminate|intros (_ & _ & H & _); exfalso; apply H; now apply mem_In]|]. apply mem_not in M. cbn [orb].
  destruct (Nat.eqb_spec (List.length subs + 1) (List.length Ts)); [|cbn; split; [discriminate|intros (_ & _ & _ & H & _); lia]]. cbn [negb orb].
  destruct (sorted_le Ts); [|cbn; split; [discriminate|intros (_ & _ & _ & _ & H); discriminate H]]. cbn [negb orb].
  destruct subs as [|m subs]; [cbn; split; [discriminate|intros (H & _); congruence]|]. cbn [snd List.length Nat.eqb]. split; auto. intros _. splits; auto; [discriminate|now apply K|cbn in *; lia].
Qed.
Theorem C38_refused_unchanged s o : snd (exec s o) = false -> (forall e, o <> Set_extrapolation e) -> (forall n d a b sel, o <> Add_correlation n d a b sel false) -> fst (exec s o) = s.
Proof.
  intros H NE NC. destruct o as [n d a b|n d a b sel opt|n t chk sel|n subs Ts sel|m|e]; cbn [Model_tdepobj.exec] in *.
  - discriminate.
  - destruct (mem n (known s)); auto. destruct opt; [discriminate|]. exfalso. eapply NC; reflexivity.
  - destruct (_ || _); auto; discriminate.
  - destruct (negb (forallb _ subs) || mem n (known s) || _ || _ || _); auto; discriminate.
  - destruct m as [n|]; [destruct (mem n (known s))|]; auto; discriminate.
  - exfalso. eapply NE; reflexivity.
Qed.
(* Without extrapolation there is no value outside the limits *)
Theorem C38_no_extrapolation s0 h s n lo hi T : initial s0 -> runs s0 h s -> meth s = Some n -> find (limits s) n = Some (lo, Some hi) -> T < lo \/ hi < T ->
  snd (exec s (Set_extrapolation None)) = true /\ property (fst (exec s (Set_extrapolation None))) T = None.
Proof.
  intros I R M L O. cbn [Model_tdepobj.exec fst snd]. split; [reflexivity|]. unfold Model_tdepobj.property. cbn [meth limits e_whole]. rewrite M, L.
  replace (inside _ T) with false; [reflexivity|]. unfold inside. cbn. unfold obj_limits. cbn. rewrite L. cbn. destruct O as [O|O].
  - rewrite (Rleb_false lo T) by lra. reflexivity.
  - rewrite (Rleb_false T hi) by lra. now rewrite andb_false_r.
Qed.
End C38.

(* Witnesses: a class without built-in methods, a table of two rows is interpolated linearly *)
Definition none_builtin : string -> option data := fun _ => None.
Definition two_rows (t : table) (T : R) : R := match t with [(x0, y0); (x1, y1)] => y0 + (y1 - y0) * (T - x0) / (x1 - x0) | _ => 0 end.
Definition no_numder : (R -> option R) -> R -> option R -> nat -> R -> option R := fun _ _ _ _ _ => None.
Definition no_numlog : (R -> option R) -> R -> option R -> R -> option R := fun _ _ _ _ => None.
Definition blank : st := {| corr := []; tab := []; loc := []; pw := []; limits := []; known := []; meth := None; e_whole := Some "constant"%string; e_lo := Some "constant"%string; e_hi := Some "constant"%string; icache := []; ccache := []; called := None |}.
Notation W_property := (property none_builtin two_rows two_rows no_numder no_numlog 500 None None 0 1000).
Notation W_call := (call_value none_builtin two_rows two_rows no_numder no_numlog 500 None None 0 1000).
Notation W_exec := (exec 0 1000).
Notation W_fill := (fill none_builtin two_rows two_rows no_numder no_numlog 500 None None 0 1000).
Notation W_runs := (runs none_builtin two_rows two_rows no_numder no_numlog 500 None None 0 1000).
Definition const_data (c : R) : data := {| d_f := fun _ => Some c; d_der := fun _ => None |}.
Definition wtable (a b : R) : table := [(300, a); (400, b)].
Lemma blank_initial : initial none_builtin blank.
Proof. constructor; cbn; try reflexivity; try (intros; congruence); try tauto; try (intros n H; exact (False_ind _ (H eq_refl))). Qed.
Ltac rb := repeat (first [rewrite Rltb_true by lra | rewrite Rltb_false by lra | rewrite Rleb_true by lra | rewrite Rleb_false by lra | rewrite Reqb_true by lra | rewrite Reqb_false by lra]).
Ltac ev := repeat (progress (cbn; unfold mem, inside, obj_limits, checked, valid, side, ge_hi, le_hi, clamp, Model_tdepobj.interpolate, first_T, last_T, two_rows, wtable, obj_extrapolate, obj_coeffs, get_coeffs, extrapolated; cbn; rb)).

Example C38_hypotheses_met :
  let ops := [Add_method "law" (const_data 7) None (Some 350); Add_tabular_data "rows" (wtable 1 3) true true; Add_piecewise_method "both" ["law"; "rows"]%string [250; 320; 400] true] in
  let s := fst (W_exec (fst (W_exec (fst (W_exec blank (nth 0 ops (Select None)))) (nth 1 ops (Select None)))) (nth 2 ops (Select None))) in
  exists h, W_runs blank h s /\ meth s = Some "both"%string /\ W_property s 300 = Some 7 /\ W_property s 350 = Some 2 /\ W_property s 500 = Some 3.
Proof.
  cbv zeta. eexists. splits.
  - eapply runs_op; [eapply runs_op; [eapply runs_op; [apply runs_start|]|]|]; cbn; try tauto. intros [H|H]; [discriminate|tauto].
  - ev. reflexivity.
  - ev. reflexivity.
  - ev. apply (f_equal (@Some R)). lra.
  - ev. apply (f_equal (@Some R)). lra.
Qed.

(* Refutations. Supplying new tabular data under the name of data that were already interpolated: the old rows are still used *)
Theorem C38_tabular_resupplied_refuted : exists s1 s2 s3, s1 = fst (W_exec blank (Add_tabular_data "rows" (wtable 1 3) true true)) /\ W_fill s1 s2 /\ s3 = fst (W_exec s2 (Add_tabular_data "rows" (wtable 11 13) true true)) /\
  snd (W_exec s2 (Add_tabular_data "rows" (wtable 11 13) true true)) = true /\ find (tab s3) "rows" = Some (wtable 11 13) /\ W_property s3 350 = Some 2 /\ W_property (fresh s3) 350 = Some 12.
Proof.
  do 3 eexists. splits; [reflexivity|eapply fill_interpolator with (n := "rows"%string) (t := wtable 1 3); [ev; reflexivity|ev; reflexivity]|reflexivity|ev; reflexivity|ev; reflexivity| |].
  - ev. apply (f_equal (@Some R)). lra.
  - ev. apply (f_equal (@Some R)). lra.
Qed.
(* Supplying a new function under the name of a local method that was already extrapolated: the old coefficients are still used outside the limits, the new function inside *)
Theorem C38_local_resupplied_refuted : exists s1 s2 s3, s1 = fst (W_exec blank (Add_method "law" (const_data 7) (Some 300) (Some 400))) /\ W_fill s1 s2 /\ s3 = fst (W_exec s2 (Add_method "law" (const_data 9) (Some 300) (Some 400))) /\
  W_property s3 400 = Some 9 /\ W_property s3 401 = Some 7 /\ W_property (fresh s3) 401 = Some 9.
Proof.
  do 3 eexists. splits; [reflexivity|eapply fill_coefficients with (n := "law"%string) (k := "constant"%string) (low := false) (cs := [7]); [now left|ev; reflexivity|ev; reflexivity]|reflexivity| | |].
  - ev. reflexivity.
  - ev. reflexivity.
  - ev. reflexivity.
Qed.
(* A local method added under the name of a correlation is selected but never evaluated *)
Theorem C38_shadowed_refuted : exists s1 s2, s1 = fst (W_exec blank (Add_correlation "law" (const_data 7) 300 400 true true)) /\ W_exec s1 (Add_method "law" (const_data 9) (Some 300) (Some 400)) = (s2, true) /\
  meth s2 = Some "law"%string /\ W_property s2 350 = Some 7.
Proof. do 2 eexists. splits; [reflexivity|reflexivity|reflexivity|]. ev. reflexivity. Qed.
(* Calling the object at the temperature of the last call returns the value from before the extrapolation was changed *)
Theorem C38_call_after_extrapolation_refuted : exists s1 s2 s3, s1 = fst (W_exec blank (Add_method "law" (const_data 7) (Some 300) (Some 400))) /\ W_fill s1 s2 /\ W_exec s2 (Set_extrapolation None) = (s3, true) /\
  W_call s3 450 = Some 7 /\ W_property s3 450 = None.
Proof.
  do 3 eexists. splits; [reflexivity|eapply fill_call with (T := 450); cbn; exact I|reflexivity| |].
  - ev. reflexivity.
  - ev. reflexivity.
Qed.
(* Setting an extrapolation of three parts raises, and yet the attribute reads back as the refused text *)
Theorem C38_extrapolation_setter_refuted : exists s e, snd (W_exec s (Set_extrapolation (Some e))) = false /\ e_whole (fst (W_exec s (Set_extrapolation (Some e)))) = Some e /\ e_whole s <> Some e.
Proof. exists blank, "linear|constant|linear"%string. splits; [reflexivity|reflexivity|discriminate]. Qed.
(* A correlation whose preparation raises stays registered: it can be selected, and the same name cannot be supplied again *)
Theorem C38_failed_correlation_refuted : exists s1, W_exec blank (Add_correlation "law" (const_data 7) 300 400 true false) = (s1, false) /\ known s1 = ["law"%string] /\ snd (W_exec s1 (Select (Some "law"%string))) = true /\
  snd (W_exec s1 (Add_correlation "law" (const_data 8) 300 400 true true)) = false.
Proof. eexists. splits; reflexivity. Qed.
