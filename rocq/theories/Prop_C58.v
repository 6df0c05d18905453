(* C58: the phase the pure component flash picks. *)
From Coq Require Import Reals List Bool Arith Lra Lia.
From Verif Require Import Base BaseFacts Model_pure.
Import ListNotations.
Open Scope R_scope.

(* --- specification --- *)
(* which phase objects are tried at temperature T (None: T is not specified): the gas above its minimum, a liquid from its minimum on,
   every solid *)
Definition above (T : option R) (m : R) : Prop := match T with None => True | Some t => m < t end.
Definition from (T : option R) (m : R) : Prop := match T with None => True | Some t => m <= t end.
Inductive tried (gas : option pobj) (liquids solids : list pobj) (T : option R) : pobj -> Prop :=
| tried_gas g : gas = Some g -> above T (T_min g) -> tried gas liquids solids T g
| tried_liquid l : In l liquids -> from T (T_min l) -> tried gas liquids solids T l
| tried_solid s : In s solids -> tried gas liquids solids T s.
(* the states of the phases tried *)
Definition candidate gas liquids solids T (s : pstate) : Prop := exists o, tried gas liquids solids T o /\ at_spec o = Some s.
Definition no_exception gas liquids solids T : Prop := forall o, tried gas liquids solids T o -> at_spec o <> None.
(* every object gives states of its own kind *)
Definition kinds (gas : option pobj) (liquids solids : list pobj) : Prop :=
  (forall g s, gas = Some g -> at_spec g = Some s -> p_kind s = Gas) /\
  (forall l s, In l liquids -> at_spec l = Some s -> p_kind s = Liquid) /\
  (forall o s, In o solids -> at_spec o = Some s -> p_kind s = Solid).
(* the answer that goes with a state *)
Definition answer (s : pstate) : placed := match p_kind s with Gas => As_gas s | Liquid => As_liquid s | Solid => As_solid s end.

(* --- the search --- *)
Definition skip (T : option R) (l : pobj) : bool := match T with None => false | Some t => Rltb t (T_min l) end.
Lemma skip_from T l : skip T l = false <-> from T (T_min l).
Proof. unfold skip, from. destruct T as [t|]; [|tauto]. destruct (Rltb_spec t (T_min l)); split; intros; try discriminate; try lra; reflexivity. Qed.

Lemma liquids_search hg ls T : forall m m', try_liquids hg ls T m = Some m' ->
  fst m' <= fst m /\
  (forall l s, In l ls -> from T (T_min l) -> at_spec l = Some s -> fst m' <= crit s) /\
  (m' = m /\ (hg = true -> forall l s, In l ls -> from T (T_min l) -> at_spec l = Some s -> crit s = fst m -> / 4 <= Zf s) \/
   exists l s, In l ls /\ from T (T_min l) /\ at_spec l = Some s /\ m' = (crit s, Some s)).
Proof.
  induction ls as [|l ls IH]; intros m m' H; cbn [try_liquids] in H.
  - injection H as <-. split; [lra|]. split; [intros ? ? []|]. left. split; [reflexivity|]. intros _ ? ? [].
  - fold (skip T l) in H. destruct (skip T l) eqn:Es.
    + destruct (IH _ _ H) as [H1 [H2 H3]]. assert (Hn : ~ from T (T_min l)) by (intros F; apply skip_from in F; congruence).
      split; [exact H1|]. split.
      * intros l' s [<-|Hi] F E; [contradiction|]. eapply H2; eauto.
      * destruct H3 as [[-> H3]|[l' [s [Hi [F [E ->]]]]]].
        -- left. split; [reflexivity|]. intros Hg l' s [<-|Hi] F E; [contradiction|]. eapply H3; eauto.
        -- right. exists l', s. split; [right; exact Hi|]. auto.
    + apply skip_from in Es. destruct (at_spec l) as [s|] eqn:El; [|discriminate]. cbv zeta in H.
      destruct (Rltb_spec (crit s) (fst m)) as [L|L].
      * destruct (IH _ _ H) as [H1 [H2 H3]]. cbn [fst] in H1. split; [lra|]. split.
        -- intros l' s' [<-|Hi] F E; [rewrite El in E; injection E as <-; lra|]. eapply H2; eauto.
        -- right. destruct H3 as [[-> H3]|[l' [s' [Hi [F [E ->]]]]]].
           ++ exists l, s. split; [left; reflexivity|]. auto.
           ++ exists l', s'. split; [right; exact Hi|]. auto.
      * destruct (Reqb_spec (crit s) (fst m)) as [E0|E0]; [destruct hg|]; cbn [andb] in H; [destruct (Rltb_spec (Zf s) (/ 4)) as [LZ|LZ]| |].
        -- destruct (IH _ _ H) as [H1 [H2 H3]]. cbn [fst] in H1. split; [lra|]. split.
           ++ intros l' s' [<-|Hi] F E; [rewrite El in E; injection E as <-; lra|]. eapply H2; eauto.
           ++ right. destruct H3 as [[-> H3]|[l' [s' [Hi [F [E ->]]]]]].
              ** exists l, s. split; [left; reflexivity|]. auto.
              ** exists l', s'. split; [right; exact Hi|]. auto.
        -- destruct (IH _ _ H) as [H1 [H2 H3]]. split; [lra|]. split.
           ++ intros l' s' [<-|Hi] F E; [rewrite El in E; injection E as <-; lra|]. eapply H2; eauto.
           ++ destruct H3 as [[-> H3]|[l' [s' [Hi [F [E ->]]]]]].
              ** left. split; [reflexivity|]. intros Hg l' s' [<-|Hi] F E Ec; [rewrite El in E; injection E as <-; lra|]. eapply H3; eauto.
              ** right. exists l', s'. split; [right; exact Hi|]. auto.
        -- destruct (IH _ _ H) as [H1 [H2 H3]]. split; [lra|]. split.
           ++ intros l' s' [<-|Hi] F E; [rewrite El in E; injection E as <-; lra|]. eapply H2; eauto.
           ++ destruct H3 as [[-> H3]|[l' [s' [Hi [F [E ->]]]]]].
              ** left. split; [reflexivity|]. intros Hg; discriminate.
              ** right. exists l', s'. split; [right; exact Hi|]. auto.
        -- destruct (IH _ _ H) as [H1 [H2 H3]]. split; [lra|]. split.
           ++ intros l' s' [<-|Hi] F E; [rewrite El in E; injection E as <-; lra|]. eapply H2; eauto.
           ++ destruct H3 as [[-> H3]|[l' [s' [Hi [F [E ->]]]]]].
              ** left. split; [reflexivity|]. intros Hg l' s' [<-|Hi] F E Ec; [rewrite El in E; injection E as <-; lra|]. eapply H3; eauto.
              ** right. exists l', s'. split; [right; exact Hi|]. auto.
Qed.
Lemma liquids_raise hg ls T : forall m, try_liquids hg ls T m = None <-> exists l, In l ls /\ from T (T_min l) /\ at_spec l = None.
Proof.
  induction ls as [|l ls IH]; intros m; cbn [try_liquids]. { split; [discriminate|intros [l [[] _]]]. }
  fold (skip T l). destruct (skip T l) eqn:Es.
  - rewrite IH. split; intros [l' [Hi [F E]]]; [exists l'; split; [right; exact Hi|auto]|].
    destruct Hi as [<-|Hi]; [apply skip_from in F; congruence|exists l'; auto].
  - apply skip_from in Es. destruct (at_spec l) as [s|] eqn:El.
    + cbv zeta. rewrite IH. split; intros [l' [Hi [F E]]]; [exists l'; split; [right; exact Hi|auto]|].
      destruct Hi as [<-|Hi]; [congruence|exists l'; auto].
    + split; [|reflexivity]. intros _. exists l. split; [left; reflexivity|auto].
Qed.
Lemma solids_search ss : forall m m', try_solids ss m = Some m' ->
  fst m' <= fst m /\ (forall o s, In o ss -> at_spec o = Some s -> fst m' <= crit s) /\
  (m' = m \/ fst m' < fst m /\ exists o s, In o ss /\ at_spec o = Some s /\ m' = (crit s, Some s)).
Proof.
  induction ss as [|o ss IH]; intros m m' H; cbn [try_solids] in H.
  - injection H as <-. split; [lra|]. split; [intros ? ? []|]. left. reflexivity.
  - destruct (at_spec o) as [s|] eqn:Eo; [|discriminate]. destruct (Rltb_spec (crit s) (fst m)) as [L|L].
    + destruct (IH _ _ H) as [H1 [H2 H3]]. cbn [fst] in *. split; [lra|]. split.
      * intros o' s' [<-|Hi] E; [rewrite Eo in E; injection E as <-; lra|]. eapply H2; eauto.
      * right. split; [lra|]. destruct H3 as [-> |[_ [o' [s' [Hi [E ->]]]]]]; [exists o, s; split; [left; reflexivity|auto]|exists o', s'; split; [right; exact Hi|auto]].
    + destruct (IH _ _ H) as [H1 [H2 H3]]. split; [lra|]. split.
      * intros o' s' [<-|Hi] E; [rewrite Eo in E; injection E as <-; lra|]. eapply H2; eauto.
      * destruct H3 as [-> |[L' [o' [s' [Hi [E ->]]]]]]; [left; reflexivity|right]. split; [exact L'|]. exists o', s'. split; [right; exact Hi|auto].
Qed.
Lemma solids_raise ss : forall m, try_solids ss m = None <-> exists o, In o ss /\ at_spec o = None.
Proof.
  induction ss as [|o ss IH]; intros m; cbn [try_solids]. { split; [discriminate|intros [l [[] _]]]. }
  destruct (at_spec o) as [s|] eqn:Eo.
  - rewrite IH. split; intros [o' [Hi E]]; [exists o'; split; [right; exact Hi|exact E]|]. destruct Hi as [<-|Hi]; [congruence|exists o'; auto].
  - split; [|reflexivity]. intros _. exists o. split; [left; reflexivity|exact Eo].
Qed.

(* The flash raises only when a phase that is tried does. Otherwise, if some phase is tried and the criterion is below 1e100, the answer
   is a phase tried whose criterion is the lowest. The gas is returned only if no liquid with a compressibility factor below 1/4 has the
   same value; a solid only if its value is below those of the gas and all the liquids. *)
Theorem C58_lowest : forall gas liquids solids T, kinds gas liquids solids ->
  (general_TPV gas liquids solids T = Raised <-> ~ no_exception gas liquids solids T) /\
  (no_exception gas liquids solids T -> (forall s, candidate gas liquids solids T s -> crit s < 10 ^ 100) ->
   (forall o, ~ tried gas liquids solids T o) /\ general_TPV gas liquids solids T = Nothing \/
   exists s, candidate gas liquids solids T s /\ general_TPV gas liquids solids T = answer s /\
     (forall s', candidate gas liquids solids T s' -> crit s <= crit s') /\
     (p_kind s = Gas -> forall s', candidate gas liquids solids T s' -> p_kind s' = Liquid -> crit s' = crit s -> / 4 <= Zf s') /\
     (p_kind s = Solid -> forall s', candidate gas liquids solids T s' -> p_kind s' <> Solid -> crit s < crit s')).
Proof.
  intros gas liquids solids T [Kg [Kl Ks]]. split.
  - unfold general_TPV. split.
    + intros H N. destruct (try_gas gas T) as [[m g]|] eqn:Eg.
      * destruct (try_liquids _ liquids T m) as [m1|] eqn:El.
        -- destruct (try_solids solids m1) as [m2|] eqn:Eo.
           ++ unfold place in H. destruct (snd m2) as [s|]; [destruct (p_kind s)|]; discriminate.
           ++ apply solids_raise in Eo. destruct Eo as [o [Hi E]]. apply (N o); [apply tried_solid; exact Hi|exact E].
        -- apply liquids_raise in El. destruct El as [l [Hi [F E]]]. apply (N l); [apply tried_liquid; assumption|exact E].
      * unfold try_gas in Eg. destruct gas as [g|]; [|discriminate]. destruct (match T with None => true | Some t => Rltb (T_min g) t end) eqn:Ea; [|discriminate].
        destruct (at_spec g) eqn:E; [discriminate|]. apply (N g); [|exact E]. apply tried_gas; [reflexivity|].
        unfold above. destruct T as [t|]; [|trivial]. destruct (Rltb_spec (T_min g) t); [assumption|discriminate].
    + intros N. destruct (try_gas gas T) as [[m g]|] eqn:Eg; [|reflexivity].
      destruct (try_liquids _ liquids T m) as [m1|] eqn:El; [|reflexivity]. destruct (try_solids solids m1) as [m2|] eqn:Eo; [|reflexivity].
      exfalso. apply N. intros o [g' Hg Ha|l Hi F|o' Hi] E.
      * subst gas. unfold try_gas in Eg. rewrite E in Eg. unfold above in Ha. destruct T as [t|]; [rewrite (Rltb_true _ _ Ha) in Eg|]; discriminate.
      * assert (X : try_liquids (match g with Some _ => true | None => false end) liquids T m = None) by (apply liquids_raise; exists l; auto). congruence.
      * assert (X : try_solids solids m1 = None) by (apply solids_raise; exists o'; auto). congruence.
  - intros N B. unfold general_TPV.
    (* the gas *)
    assert (G0 : exists m g, try_gas gas T = Some (m, g) /\
       ((m = (10 ^ 100, None) /\ g = None /\ (forall g, gas = Some g -> ~ above T (T_min g))) \/
        exists go s, gas = Some go /\ above T (T_min go) /\ at_spec go = Some s /\ m = (crit s, Some s) /\ g = Some s)).
    { unfold try_gas. destruct gas as [go|]; [|eexists _, _; split; [reflexivity|left; split; [reflexivity|split; [reflexivity|discriminate]]]].
      destruct (match T with None => true | Some t => Rltb (T_min go) t end) eqn:Ea.
      - assert (Ha : above T (T_min go)). { unfold above. destruct T as [t|]; [|trivial]. destruct (Rltb_spec (T_min go) t); [assumption|discriminate]. }
        destruct (at_spec go) as [s|] eqn:E; [|exfalso; apply (N go); [apply tried_gas; auto|exact E]].
        eexists _, _. split; [reflexivity|]. right. exists go, s. auto.
      - eexists _, _. split; [reflexivity|]. left. split; [reflexivity|]. split; [reflexivity|]. intros g [= <-] Ha. unfold above in Ha.
        destruct T as [t|]; [rewrite (Rltb_true _ _ Ha) in Ea|]; discriminate. }
    destruct G0 as [m [g [-> Hm]]]. set (hg := match g with Some _ => true | None => false end).
    destruct (try_liquids hg liquids T m) as [m1|] eqn:El.
    2: { apply liquids_raise in El. destruct El as [l [Hi [F E]]]. exfalso. apply (N l); [apply tried_liquid; assumption|exact E]. }
    destruct (try_solids solids m1) as [m2|] eqn:Eo.
    2: { apply solids_raise in Eo. destruct Eo as [o [Hi E]]. exfalso. apply (N o); [apply tried_solid; exact Hi|exact E]. }
    destruct (liquids_search _ _ _ _ _ El) as [L1 [L2 L3]]. destruct (solids_search _ _ _ Eo) as [S1 [S2 S3]].
    (* the final value is a lower bound *)
    assert (Low : forall s', candidate gas liquids solids T s' -> fst m2 <= crit s').
    { intros s' [o [[g' Hg Ha|l Hi F|o' Hi] E]].
      - destruct Hm as [[_ [_ Hno]]|[go [s [Hgo [Ha' [Es [-> _]]]]]]]; [exfalso; eapply Hno; eauto|].
        rewrite Hg in Hgo. injection Hgo as <-. rewrite E in Es. injection Es as <-. cbn [fst] in L1. lra.
      - pose proof (L2 _ _ Hi F E). lra.
      - apply (S2 _ _ Hi E). }
    destruct S3 as [-> |[S3 [o [s [Hi [E ->]]]]]].
    + destruct L3 as [[-> L3]|[l [s [Hi [F [E ->]]]]]].
      * destruct Hm as [[-> [-> Hno]]|[go [s [Hgo [Ha [Es [-> ->]]]]]]].
        -- left. split; [|reflexivity]. intros o Ho. assert (Hs : exists s, at_spec o = Some s) by (specialize (N o Ho); destruct (at_spec o); [eauto|congruence]).
           destruct Hs as [s Hs]. assert (C : candidate gas liquids solids T s) by (exists o; auto).
           pose proof (B s C). pose proof (Low s C) as X. cbn [fst] in X. lra.
        -- right. exists s. assert (C : candidate gas liquids solids T s) by (exists go; split; [apply tried_gas; auto|exact Es]).
           split; [exact C|]. split; [reflexivity|]. split; [exact Low|].
           pose proof (Kg _ _ Hgo Es) as Ek. rewrite Ek. split; [|discriminate]. intros _ s' [o [Ho E']] Hk Hc.
           destruct Ho as [g' Hg' Ha'|l Hi F|o' Hi].
           ++ rewrite (Kg _ _ Hg' E') in Hk. discriminate.
           ++ apply (L3 eq_refl l s' Hi F E'). exact Hc.
           ++ rewrite (Ks _ _ Hi E') in Hk. discriminate.
      * right. exists s. split; [exists l; split; [apply tried_liquid; assumption|exact E]|]. split; [reflexivity|]. split; [exact Low|].
        rewrite (Kl _ _ Hi E). split; discriminate.
    + right. exists s. split; [exists o; split; [apply tried_solid; exact Hi|exact E]|]. split; [reflexivity|]. split; [exact Low|].
      rewrite (Ks _ _ Hi E). split; [discriminate|]. intros _ s' [o' [Ho E']] Hk. cbn [fst] in S3.
      destruct Ho as [g' Hg' Ha'|l Hl F|o2 Ho2].
      * destruct Hm as [[_ [_ Hno]]|[go [sg [Hgo [Ha [Es [-> _]]]]]]]; [exfalso; eapply Hno; eauto|].
        rewrite Hg' in Hgo. injection Hgo as <-. rewrite E' in Es. injection Es as <-. cbn [fst] in L1. lra.
      * pose proof (L2 _ _ Hl F E'). lra.
      * exfalso. apply Hk. apply (Ks _ _ Ho2 E').
Qed.

(* --- the shortcuts --- *)
(* With one package of a single equation of state, at T and P: the phase with the lower Gibbs departure, the gas for equal values, so the
   lower criterion when both phases have the same ideal gas part *)
Theorem C58_same_EOS : forall r Gl Gg go lo sg sl T, at_spec go = Some sg -> at_spec lo = Some sl ->
  let a := flash_TPV (Same_EOS r Gl Gg false) true (Some go) [lo] [] T in
  (r = Both -> forall ideal, crit sl = ideal + Gl -> crit sg = ideal + Gg -> a = if Rlt_dec (crit sl) (crit sg) then As_liquid sl else As_gas sg) /\
  (r = Gas_only -> a = As_gas sg) /\ (r = Liquid_only -> a = As_liquid sg).
Proof.
  intros r Gl Gg go lo sg sl T Eg El a. unfold a, flash_TPV. cbn [hd_error at_spec_of]. rewrite Eg, El. cbn [or_raise]. splits.
  - intros -> ideal E1 E2. destruct (Rltb_spec Gl Gg), (Rlt_dec (crit sl) (crit sg)); try reflexivity; lra.
  - intros ->. reflexivity.
  - intros ->. reflexivity.
Qed.
(* With an ideal gas and activity coefficients, at T and P: the lower Gibbs energy when those of the two phases differ by a positive
   factor (R T) times ln (P / Psat) *)
Theorem C58_activity : forall P Psat RT go lo sg sl T, at_spec go = Some sg -> at_spec lo = Some sl -> 0 < P -> 0 < Psat -> 0 < RT ->
  crit sg - crit sl = RT * (ln P - ln Psat) ->
  flash_TPV (IG_activity P Psat) true (Some go) [lo] [] T = if Rlt_dec (crit sl) (crit sg) then As_liquid sl else As_gas sg.
Proof.
  intros P Psat RT go lo sg sl T Eg El HP HS HR E. unfold flash_TPV. cbn [hd_error at_spec_of]. rewrite Eg, El. cbn [or_raise].
  destruct (Rltb_spec Psat P) as [L|L], (Rlt_dec (crit sl) (crit sg)) as [L'|L']; try reflexivity; exfalso.
  - pose proof (ln_increasing _ _ HS L). assert (0 < RT * (ln P - ln Psat)) by (apply Rmult_lt_0_compat; lra). lra.
  - destruct (Rle_lt_or_eq_dec P Psat) as [LT|EQ]; [lra| |].
    + pose proof (ln_increasing _ _ HP LT). assert (0 < RT * (ln Psat - ln P)) by (apply Rmult_lt_0_compat; lra). lra.
    + subst P. replace (RT * (ln Psat - ln Psat)) with 0 in E by ring. lra.
Qed.
(* any other package, or a solution that is asked for, takes the general way *)
Theorem C58_other : forall pk default gas liquids solids T, pk = Other_package \/ default = false ->
  (forall p, (gas, liquids, solids) <> (Some p, [], []) /\ (gas, liquids, solids) <> (None, [p], []) /\ (gas, liquids, solids) <> (None, [], [p])) ->
  flash_TPV pk default gas liquids solids T = general_TPV gas liquids solids T.
Proof.
  intros pk default gas liquids solids T Hp Hn. unfold flash_TPV.
  assert (E : match pk, default with
    | Same_EOS r Gl Gg false, true => match r with Both => if Rltb Gl Gg then or_raise As_liquid (at_spec_of (hd_error liquids)) else or_raise As_gas (at_spec_of gas)
        | Gas_only => or_raise As_gas (at_spec_of gas) | Liquid_only => or_raise As_liquid (at_spec_of gas) end
    | IG_activity P Psat, true => if Rltb Psat P then or_raise As_liquid (at_spec_of (hd_error liquids)) else or_raise As_gas (at_spec_of gas)
    | Same_EOS r _ _ true, true => match r with Gas_only => or_raise As_gas (at_spec_of gas) | _ => or_raise As_liquid (at_spec_of gas) end
    | _, _ => general_TPV gas liquids solids T end = general_TPV gas liquids solids T).
  { destruct Hp as [-> | ->]; [destruct default; reflexivity|]. destruct pk as [|r a b []|]; reflexivity. }
  destruct gas as [g|], liquids as [|l [|]], solids as [|s [|]]; try exact E; exfalso.
  - apply (proj1 (Hn g)). reflexivity.
  - apply (proj2 (proj2 (Hn s))). reflexivity.
  - apply (proj1 (proj2 (Hn l))). reflexivity.
Qed.
(* a package of one phase lists it as a liquid, also when it is a gas or a solid *)
Theorem C58_one_phase : forall pk default p s T, at_spec p = Some s ->
  flash_TPV pk default (Some p) [] [] T = As_liquid s /\ flash_TPV pk default None [p] [] T = As_liquid s /\ flash_TPV pk default None [] [p] T = As_liquid s.
Proof. intros pk default p s T E. unfold flash_TPV. rewrite E. auto. Qed.
(* given V, one equation of state with two roots is answered with the gas object listed as a liquid, whichever departure is lower, and
   never with the liquid object *)
Theorem C58_volume_refuted : forall Gl Gg go lo sg T, at_spec go = Some sg -> flash_TPV (Same_EOS Both Gl Gg true) true (Some go) [lo] [] T = As_liquid sg.
Proof. intros Gl Gg go lo sg T E. unfold flash_TPV. cbn [at_spec_of]. rewrite E. reflexivity. Qed.
(* at the minimum temperature of the gas the gas is not tried, a liquid at its own is *)
Theorem C58_minimum_refuted : exists go lo sg sl, at_spec go = Some sg /\ at_spec lo = Some sl /\ T_min go = 243 /\ T_min lo = 243 /\
  crit sg < crit sl /\ general_TPV (Some go) [lo] [] (Some 243) = As_liquid sl.
Proof.
  exists {| T_min := 243; at_spec := Some {| p_name := 0; p_kind := Gas; crit := 0; Zf := 1 |} |},
         {| T_min := 243; at_spec := Some {| p_name := 1; p_kind := Liquid; crit := 1; Zf := 0 |} |}. do 2 eexists.
  split; [reflexivity|]. split; [reflexivity|]. split; [reflexivity|]. split; [reflexivity|]. split; [cbn; lra|].
  unfold general_TPV, try_gas. cbn [T_min]. rewrite Rltb_false by lra. cbn [try_liquids T_min at_spec]. rewrite Rltb_false by lra.
  cbn [crit fst]. assert (1 < 10 ^ 100) by (apply Rlt_pow_R1; [lra|lia]). rewrite Rltb_true by assumption. reflexivity.
Qed.

(* --- one of T, P, V with H, S or U --- *)
Lemma best1_none PS l : best1 PS l = None <-> forall a, In a l -> a = None.
Proof.
  unfold best1. assert (H : forall b, fold_left (fun best a => match a with None => best | Some new => match best with None => Some new | Some prev => if takes PS new prev then Some new else best end end) l b = None
    <-> b = None /\ forall a, In a l -> a = None).
  { induction l as [|a l IH]; intros b; cbn [fold_left]. { split; [intros ->; split; [reflexivity|intros ? []]|tauto]. }
    rewrite IH. destruct a as [new|].
    - split; [|intros [_ H]; specialize (H _ (or_introl eq_refl)); discriminate].
      intros [H _]. destruct b as [prev|]; [destruct (takes PS new prev); discriminate|discriminate].
    - split; intros [H1 H2]; (split; [exact H1|]); intros a Ha; [destruct Ha as [<-|Ha]; auto|apply H2; right; exact Ha]. }
  rewrite H. tauto.
Qed.
(* which of the one phase solutions is preferred. For P and S given: one above 1 K over one that is not, then the lower criterion *)
Definition preferred (PS : bool) (b a : sol1) : Prop :=
  if PS then (1 < s_T b /\ ~ 1 < s_T a) \/ ((1 < s_T b <-> 1 < s_T a) /\ crit (s_state b) <= crit (s_state a)) else crit (s_state b) <= crit (s_state a).
Lemma preferred_refl PS a : preferred PS a a.
Proof. unfold preferred. destruct PS; [right; split; [tauto|lra]|lra]. Qed.
Lemma preferred_trans PS a b c : preferred PS a b -> preferred PS b c -> preferred PS a c.
Proof.
  unfold preferred. destruct PS; [|lra]. intros [[H1 H2]|[H1 H2]] [[H3 H4]|[H3 H4]].
  - left. tauto.
  - left. tauto.
  - left. tauto.
  - right. split; [tauto|lra].
Qed.
Lemma takes_preferred PS new prev : (PS = true -> s_T new <> 1 /\ s_T prev <> 1) ->
  (takes PS new prev = true -> preferred PS new prev) /\ (takes PS new prev = false -> preferred PS prev new).
Proof.
  intros Hn. unfold takes, preferred. destruct PS.
  - specialize (Hn eq_refl).
    destruct (Rltb_spec (crit (s_state new)) (crit (s_state prev))), (Rltb_spec (s_T new) 1), (Rltb_spec 1 (s_T prev)), (Rltb_spec (s_T prev) 1), (Rltb_spec 1 (s_T new));
      cbn [andb negb]; split; intros; try discriminate; try lra;
      first [left; split; [assumption|lra] | right; split; [split; intros; lra|lra]].
  - destruct (Rltb_spec (crit (s_state new)) (crit (s_state prev))); split; intros; try discriminate; lra.
Qed.
Lemma best1_some PS l b : (PS = true -> forall a, In (Some a) l -> s_T a <> 1) -> best1 PS l = Some b ->
  In (Some b) l /\ forall a, In (Some a) l -> preferred PS b a.
Proof.
  unfold best1. intros Hn H.
  assert (G : forall b0, (match b0 with Some b0 => PS = true -> s_T b0 <> 1 | None => True end) ->
    fold_left (fun best a => match a with None => best | Some new => match best with None => Some new | Some prev => if takes PS new prev then Some new else best end end) l b0 = Some b ->
    (In (Some b) l \/ b0 = Some b) /\ (forall a, In (Some a) l \/ b0 = Some a -> preferred PS b a)).
  { clear H. induction l as [|a l IH]; intros b0 H0 H; cbn [fold_left] in H.
    - subst b0. split; [right; reflexivity|]. intros a [[]|[= <-]]. apply preferred_refl.
    - assert (Hn' : PS = true -> forall a, In (Some a) l -> s_T a <> 1) by (intros E x Hx; apply (Hn E); right; exact Hx).
      destruct a as [new|].
      + destruct b0 as [prev|].
        * destruct (takes_preferred PS new prev) as [T1 T2]. { intros E. split; [apply (Hn E); left; reflexivity|apply (H0 E)]. }
          destruct (takes PS new prev).
          -- destruct (IH Hn' (Some new)) as [I1 I2]; [intros E; apply (Hn E); left; reflexivity|exact H|]. specialize (T1 eq_refl). split.
             ++ destruct I1 as [I1|[= <-]]; left; [right; exact I1|left; reflexivity].
             ++ intros a [[[= <-]|Hi]|[= <-]]; [apply I2; right; reflexivity|apply I2; left; exact Hi|].
                eapply preferred_trans; [apply I2; right; reflexivity|exact T1].
          -- destruct (IH Hn' (Some prev)) as [I1 I2]; [exact H0|exact H|]. specialize (T2 eq_refl). split.
             ++ destruct I1 as [I1|[= <-]]; [left; right; exact I1|right; reflexivity].
             ++ intros a [[[= <-]|Hi]|[= <-]]; [|apply I2; left; exact Hi|apply I2; right; reflexivity].
                eapply preferred_trans; [apply I2; right; reflexivity|exact T2].
        * destruct (IH Hn' (Some new)) as [I1 I2]; [intros E; apply (Hn E); left; reflexivity|exact H|]. split.
          -- destruct I1 as [I1|[= <-]]; left; [right; exact I1|left; reflexivity].
          -- intros a [[[= <-]|Hi]|?]; [apply I2; right; reflexivity|apply I2; left; exact Hi|discriminate].
      + destruct (IH Hn' b0 H0 H) as [I1 I2]. split.
        * destruct I1 as [I1|I1]; [left; right; exact I1|right; exact I1].
        * intros a [[?|Hi]|E]; [discriminate|apply I2; left; exact Hi|apply I2; right; exact E]. }
  destruct (G None I H) as [[G1|G1] G2]; [|discriminate]. split; [exact G1|]. intros a Ha. apply G2. left. exact Ha.
Qed.

(* the vapour fraction at which the mixture of the saturated phases has the specified value, and the criterion of that mixture *)
Definition mixture (s : sat) (spec_val VF : R) : Prop := spec_g s <> spec_l s /\ 0 <= VF <= 1 /\ VF * spec_g s + (1 - VF) * spec_l s = spec_val.
Definition mixed (s : sat) (VF : R) : R := VF * crit_g s + (1 - VF) * crit_l s.
Lemma lever_iff vl spec_val VF g : lever vl spec_val = Some (VF, g) <-> exists s, vl = Some s /\ mixture s spec_val VF /\ g = mixed s VF.
Proof.
  unfold lever, mixture, mixed. split.
  - intros H. destruct vl as [s|]; [|discriminate]. destruct (Reqb_spec (spec_g s - spec_l s) 0) as [|n]; [discriminate|]. cbv zeta in H.
    destruct (Rleb_spec 0 ((spec_val - spec_l s) / (spec_g s - spec_l s))); [|discriminate].
    destruct (Rleb_spec ((spec_val - spec_l s) / (spec_g s - spec_l s)) 1); [|discriminate]. cbn [andb] in H. injection H as <- <-.
    exists s. split; [reflexivity|]. split; [|ring]. split; [lra|]. split; [lra|]. field. exact n.
  - intros [s [-> [[Hn [HV E]] ->]]]. rewrite Reqb_false by lra. cbv zeta.
    assert (EV : (spec_val - spec_l s) / (spec_g s - spec_l s) = VF) by (rewrite <- E; field; lra). rewrite EV.
    rewrite (Rleb_true 0 VF), (Rleb_true VF 1) by lra. cbn [andb]. f_equal. f_equal. ring.
Qed.

(* with the criterion below 1e100 throughout *)
Definition bounded_criterion (vl : option sat) (attempts : list (option sol1)) : Prop :=
  (forall a, In (Some a) attempts -> crit (s_state a) < 10 ^ 100) /\ (forall s, vl = Some s -> crit_l s < 10 ^ 100 /\ crit_g s < 10 ^ 100).
Lemma mixed_lt s VF M : 0 <= VF <= 1 -> crit_l s < M -> crit_g s < M -> mixed s VF < M.
Proof.
  intros HV H1 H2. unfold mixed. assert (0 <= VF * (M - crit_g s)) by (apply Rmult_le_pos; lra). assert (0 <= (1 - VF) * (M - crit_l s)) by (apply Rmult_le_pos; lra).
  destruct (Req_dec VF 0) as [->|]; [lra|]. assert (0 < VF * (M - crit_g s)) by (apply Rmult_lt_0_compat; lra). lra.
Qed.

(* Two phases are returned with the vapour fraction that gives the specified value, and only if their mixture has a lower criterion than
   the preferred one phase solution; one phase if it is the preferred solution and no mixture is lower; an error only if there is neither
   a one phase solution nor a mixture. For P and S the one phase solutions are not at exactly 1 K. *)
Theorem C58_HSGUA : forall PS vl attempts sf bounds spec_val, bounded_criterion vl attempts -> (PS = true -> forall a, In (Some a) attempts -> s_T a <> 1) ->
  let r := flash_TPV_HSGUA PS vl attempts sf bounds spec_val in
  (forall VF, r = Two VF -> exists s, vl = Some s /\ mixture s spec_val VF /\
     ((forall a, ~ In (Some a) attempts) \/ exists b, In (Some b) attempts /\ (forall a, In (Some a) attempts -> preferred PS b a) /\ mixed s VF < crit (s_state b))) /\
  (forall b, r = One b -> In (Some b) attempts /\ (forall a, In (Some a) attempts -> preferred PS b a) /\
     (forall s VF, vl = Some s -> mixture s spec_val VF -> crit (s_state b) <= mixed s VF)) /\
  ((exists e, r = Error e) <-> (forall a, ~ In (Some a) attempts) /\ (forall s VF, vl = Some s -> ~ mixture s spec_val VF)).
Proof.
  intros PS vl attempts sf bounds spec_val [B1 B2] Hn r. unfold r, flash_TPV_HSGUA. cbv zeta.
  assert (Nil : best1 PS attempts = None -> forall a, ~ In (Some a) attempts).
  { intros E a Ha. rewrite best1_none in E. specialize (E _ Ha). discriminate. }
  assert (Lv : forall VF g, lever vl spec_val = Some (VF, g) -> g < 10 ^ 100).
  { intros VF g E. apply lever_iff in E. destruct E as [s [Ev [[_ [HV _]] ->]]]. destruct (B2 _ Ev). apply mixed_lt; assumption. }
  destruct (best1 PS attempts) as [b|] eqn:Eb.
  - destruct (best1_some PS attempts b Hn Eb) as [Hb Hmin]. pose proof (B1 _ Hb) as Hcb.
    destruct (lever vl spec_val) as [[VF g]|] eqn:El.
    + pose proof (Lv _ _ eq_refl) as Hg. apply lever_iff in El. destruct El as [s [Ev [Hm ->]]].
      destruct (Rltb_spec (mixed s VF) (crit (s_state b))) as [L|L].
      * splits.
        -- intros VF' [= <-]. exists s. split; [exact Ev|]. split; [exact Hm|]. right. exists b. auto.
        -- discriminate.
        -- split; [intros [e ?]; discriminate|]. intros [H _]. exfalso. eapply H; eauto.
      * rewrite Reqb_false by lra. splits.
        -- discriminate.
        -- intros b' [= <-]. split; [exact Hb|]. split; [exact Hmin|]. intros s' VF' Ev' Hm'. rewrite Ev in Ev'. injection Ev' as <-.
           assert (VF' = VF); [|subst; lra]. destruct Hm as [N1 [_ E1]], Hm' as [_ [_ E2]]. rewrite <- E2 in E1.
           assert (Q : (VF' - VF) * (spec_g s - spec_l s) = 0) by lra. apply Rmult_integral in Q. lra.
        -- split; [intros [e ?]; discriminate|]. intros [H _]. exfalso. eapply H; eauto.
    + rewrite Rltb_false by lra. rewrite Reqb_false by lra. splits.
      * discriminate.
      * intros b' [= <-]. split; [exact Hb|]. split; [exact Hmin|]. intros s VF Ev Hm. exfalso.
        assert (X : lever vl spec_val = Some (VF, mixed s VF)) by (apply lever_iff; eauto). congruence.
      * split; [intros [e ?]; discriminate|]. intros [H _]. exfalso. eapply H; eauto.
  - specialize (Nil eq_refl). destruct (lever vl spec_val) as [[VF g]|] eqn:El.
    + pose proof (Lv _ _ eq_refl) as Hg. rewrite Rltb_true by exact Hg. apply lever_iff in El. destruct El as [s [Ev [Hm ->]]]. splits.
      * intros VF' [= <-]. exists s. auto.
      * discriminate.
      * split; [intros [e ?]; discriminate|]. intros [_ H]. exfalso. eapply H; eauto.
    + rewrite Rltb_false by lra. rewrite Reqb_true by reflexivity. splits.
      * discriminate.
      * discriminate.
      * split; [|eauto]. intros _. split; [exact Nil|]. intros s VF Ev Hm.
        assert (X : lever vl spec_val = Some (VF, mixed s VF)) by (apply lever_iff; eauto). congruence.
Qed.

(* Equilibrium of solid and fluid is looked for and then never returned: the answer does not depend on it, but for the kind of error. When
   the specified value lies between those of the two phases and nothing else was found, the flash fails *)
Theorem C58_solid_fluid_refuted :
  (forall PS vl attempts sf sf' bounds spec_val, (forall e, flash_TPV_HSGUA PS vl attempts sf bounds spec_val <> Error e) ->
     flash_TPV_HSGUA PS vl attempts sf bounds spec_val = flash_TPV_HSGUA PS vl attempts sf' bounds spec_val) /\
  (forall PS s o spec_val, s < spec_val < o -> flash_TPV_HSGUA PS None [None; None] (Some (s, o)) [Some (0, 0); Some (0, 0)] spec_val = Error Unconverged_in_bounds).
Proof.
  split.
  - intros PS vl attempts sf sf' bounds spec_val H. unfold flash_TPV_HSGUA in *. cbv zeta in *. destruct (Rltb _ _); [reflexivity|].
    destruct (Reqb _ _); [|reflexivity]. exfalso. eapply H. reflexivity.
  - intros PS s o x H. unfold flash_TPV_HSGUA. cbv zeta. cbn [best1 fold_left lever]. rewrite Rltb_false by lra. rewrite Reqb_true by reflexivity.
    unfold failure_of, solid_fraction. rewrite Reqb_false by lra. cbv zeta.
    assert (H1 : 0 < (x - s) / (o - s)) by (apply Rdiv_lt_0_compat; lra).
    assert (H2 : (x - s) / (o - s) < 1) by (apply (Rmult_lt_reg_r (o - s)); [lra|]; unfold Rdiv; rewrite Rmult_assoc, Rinv_l by lra; lra).
    rewrite (Rltb_false _ 0), (Rltb_false 1) by lra. cbn [orb].
    assert (B : between s o x = true). { unfold between. rewrite Rmin_left, Rmax_right by lra. rewrite !Rleb_true by lra. reflexivity. }
    rewrite B, !orb_true_r. reflexivity.
Qed.

(* Which error: a solution was there to be found if the specified value lies between the values of a phase at its two bounds, between those
   of the saturated phases, or between those of different value of the solid and the fluid; if it does not, it is uncertain when a phase
   gave no value at its bounds, and there is no solution otherwise *)
Theorem C58_error : forall PS vl attempts sf bounds x e, bounded_criterion vl attempts ->
  flash_TPV_HSGUA PS vl attempts sf bounds x = Error e ->
  let inside a b := a <= x <= b \/ b <= x <= a in
  let there := (exists a b, In (Some (a, b)) bounds /\ inside a b) \/ (exists s, vl = Some s /\ inside (spec_l s) (spec_g s)) \/
               (exists s o, sf = Some (s, o) /\ s <> o /\ inside s o) in
  (e = Unconverged_in_bounds <-> there) /\ (e = Unconverged_uncertain <-> ~ there /\ In None bounds) /\ (e = No_solution <-> ~ there /\ ~ In None bounds).
Proof.
  intros PS vl attempts sf bounds x e [B1 B2] H inside there.
  assert (E : e = failure_of bounds vl sf x).
  { unfold flash_TPV_HSGUA in H. cbv zeta in H. destruct (best1 PS attempts) as [b|] eqn:Eb.
    - assert (Hb : In (Some b) attempts).
      { unfold best1 in Eb. assert (G : forall l acc, fold_left (fun best a => match a with None => best
          | Some new => match best with None => Some new | Some prev => if takes PS new prev then Some new else best end end) l acc = Some b -> acc = Some b \/ In (Some b) l).
        { induction l as [|o l IH]; intros acc A; cbn in A; [auto|]. apply IH in A. destruct A as [A|A]; [|right; right; exact A].
          destruct o as [n|]; [|auto]. destruct acc as [p|]; [destruct (takes PS n p)|]; auto; injection A as ->; right; left; reflexivity. }
        apply G in Eb. destruct Eb; [discriminate|assumption]. }
      pose proof (B1 _ Hb) as L. destruct (lever vl x) as [[VF g]|].
      + destruct (Rltb _ _); [discriminate|]. rewrite Reqb_false in H by lra. discriminate.
      + rewrite Rltb_false in H by lra. rewrite Reqb_false in H by lra. discriminate.
    - destruct (lever vl x) as [[VF g]|].
      + destruct (Rltb _ _); [discriminate|]. rewrite Reqb_true in H by reflexivity. congruence.
      + rewrite Rltb_false in H by lra. rewrite Reqb_true in H by reflexivity. congruence. }
  assert (Bt : forall a b, between a b x = true <-> inside a b).
  { intros a b. unfold between, inside. rewrite andb_true_iff. unfold Rmin, Rmax. destruct (Rle_dec a b);
      repeat match goal with |- context [Rleb ?u ?v] => destruct (Rleb_spec u v) end; split; intros; try lra; intuition (try discriminate; lra). }
  set (had := existsb (fun o => match o with Some (lo, hi) => between lo hi x | None => false end) bounds
             || (match vl with Some s => between (spec_l s) (spec_g s) x | None => false end)
             || (match solid_fraction sf x, sf with Some _, Some (s, o) => between s o x | _, _ => false end)).
  set (unc := existsb (fun o : option (R * R) => match o with None => true | Some _ => false end) bounds).
  assert (Eh : had = true <-> there).
  { unfold had, there. rewrite !orb_true_iff. rewrite existsb_exists.
    assert (S : (match solid_fraction sf x, sf with Some _, Some (s, o) => between s o x | _, _ => false end) = true <-> exists s o, sf = Some (s, o) /\ s <> o /\ inside s o).
    { destruct sf as [[s o]|]; cbn [solid_fraction].
      - destruct (Reqb_spec (o - s) 0) as [z|z].
        + split; [discriminate|]. intros (s' & o' & [= <- <-] & N & _). exfalso. lra.
        + cbv zeta. assert (F : inside s o -> 0 <= (x - s) / (o - s) <= 1).
          { assert (Q : (x - s) / (o - s) * (o - s) = x - s) by (field; exact z). set (q := (x - s) / (o - s)) in *. clearbody q. intros [I1|I1]; split; nra. }
          destruct (Rltb_spec ((x - s) / (o - s)) 0); cbn [orb]; [|destruct (Rltb_spec 1 ((x - s) / (o - s)))].
          * split; [discriminate|]. intros (s' & o' & [= <- <-] & _ & I1). specialize (F I1). lra.
          * split; [discriminate|]. intros (s' & o' & [= <- <-] & _ & I1). specialize (F I1). lra.
          * rewrite Bt. split; [intros I1; exists s, o; splits; [reflexivity|lra|exact I1]|]. intros (s' & o' & [= <- <-] & _ & I1). exact I1.
      - split; [discriminate|]. intros (s & o & Q & _). discriminate. }
    rewrite S. split.
    - intros [[(o & Ho & Hx)|Hv]|Hs].
      + left. destruct o as [[a b]|]; [|discriminate]. exists a, b. rewrite Bt in Hx. auto.
      + right. left. destruct vl as [s|]; [|discriminate]. exists s. rewrite Bt in Hv. auto.
      + right. right. exact Hs.
    - intros [(a & b & Ho & Hx)|[(s & -> & Hv)|Hs]].
      + left. left. exists (Some (a, b)). rewrite Bt. auto.
      + left. right. rewrite Bt. exact Hv.
      + right. exact Hs. }
  assert (Eu : unc = true <-> In None bounds).
  { unfold unc. rewrite existsb_exists. split; [intros ([?|] & Ho & ?); [discriminate|exact Ho]|]. intros Ho. exists None. auto. }
  assert (E' : e = if had then Unconverged_in_bounds else if unc then Unconverged_uncertain else No_solution) by exact E.
  clearbody had unc. rewrite <- Eh, <- Eu, E'. destruct had, unc; splits; intuition congruence.
Qed.
Example C58_error_hypotheses_met : bounded_criterion None [None; None] /\
  flash_TPV_HSGUA false None [None; None] None [Some (1, 4); None] 2 = Error Unconverged_in_bounds /\
  flash_TPV_HSGUA false None [None; None] None [Some (1, 4); None] 5 = Error Unconverged_uncertain /\
  flash_TPV_HSGUA false None [None; None] None [Some (1, 4); Some (3, 2)] 5 = Error No_solution.
Proof.
  assert (Q : forall x y, Rltb x x = false /\ Reqb y y = true) by (intros; split; [apply Rltb_false; lra|apply Reqb_true; reflexivity]).
  splits; [split; [intros a [?|[?|[]]]; discriminate|intros; discriminate]|..];
    unfold flash_TPV_HSGUA; cbn [best1 fold_left lever]; rewrite (proj1 (Q (10 ^ 100) 0)), (proj2 (Q 0 (10 ^ 100))); unfold failure_of, between; cbn [existsb solid_fraction orb];
    repeat first [rewrite Rmin_left by lra | rewrite Rmin_right by lra]; repeat first [rewrite Rmax_right by lra | rewrite Rmax_left by lra];
    repeat match goal with |- context [Rleb ?u ?v] => destruct (Rleb_spec u v); try (exfalso; lra) end; reflexivity.
Qed.

(* --- saturation first --- *)
(* Two phases with the vapour fraction that gives the specified value when there is one; otherwise the first phase whose solution is kept, the
   liquid first when the value is on the liquid's side, the gas first when it is on the gas's side or without saturation. A solution of a
   cubic is not kept if the other root has a lower Gibbs energy *)
Theorem C58_bound_first : forall cubic vl gas liquid spec_val,
  let kept a s := exists x, a = Some x /\ a_state x = s /\ (cubic = true -> a_both x = true -> a_lowest x = true) in
  let r := VL_bound_first cubic vl gas liquid spec_val in
  (forall VF, r = B_two VF <-> exists sl sg, vl = Some (sl, sg) /\ sg <> sl /\ 0 <= VF <= 1 /\ VF * sg + (1 - VF) * sl = spec_val) /\
  (forall s, r = B_one s -> kept gas s \/ kept liquid s) /\
  (r = B_None -> (forall s, ~ kept gas s) /\ (forall s, ~ kept liquid s)) /\
  (forall sl sg s, vl = Some (sl, sg) -> (sl < sg /\ spec_val < sl \/ sg < sl /\ sl < spec_val) -> kept liquid s -> r = B_one s) /\
  (forall sl sg s, vl = Some (sl, sg) -> (sl < sg /\ sg < spec_val \/ sg < sl /\ spec_val < sg) -> kept gas s -> r = B_one s) /\
  (forall s, vl = None -> kept gas s -> r = B_one s).
Proof.
  intros cubic vl gas liquid x kept r.
  assert (Acc : forall a s, accepted cubic a = Some s <-> kept a s).
  { intros a s. unfold accepted, kept. destruct a as [a|]; [|split; [discriminate|intros [? [? _]]; discriminate]].
    destruct cubic, (a_both a) eqn:Eb, (a_lowest a) eqn:El; cbn [andb negb]; split.
    all: try (intros [= <-]; exists a; split; [reflexivity|split; [reflexivity|intros; congruence]]).
    all: try (intros [y [[= <-] [<- _]]]; reflexivity).
    - discriminate.
    - intros [y [[= <-] [_ H]]]. rewrite El in H. specialize (H eq_refl Eb). discriminate. }
  assert (AccN : forall a, accepted cubic a = None -> forall s, ~ kept a s) by (intros a E s K; apply Acc in K; congruence).
  set (try_ := fun l => match first_accepted cubic l with Some s => B_one s | None => B_None end).
  assert (Two2 : forall a b, (forall VF, try_ [a; b] <> B_two VF) /\ (forall s, try_ [a; b] = B_one s -> kept a s \/ kept b s) /\
     (try_ [a; b] = B_None -> (forall s, ~ kept a s) /\ (forall s, ~ kept b s)) /\ (forall s, kept a s -> try_ [a; b] = B_one s)).
  { intros a b. unfold try_. cbn [first_accepted]. destruct (accepted cubic a) as [s|] eqn:Ea.
    - splits; try discriminate. { intros s' [= <-]. left. apply Acc. exact Ea. } intros s' K. apply Acc in K. congruence.
    - destruct (accepted cubic b) as [s|] eqn:Eb'.
      + splits; try discriminate. { intros s' [= <-]. right. apply Acc. exact Eb'. } intros s' K. apply Acc in K. congruence.
      + splits; try discriminate. { intros _. split; apply AccN; assumption. } intros s' K. apply Acc in K. congruence. }
  unfold r, VL_bound_first. fold try_. destruct vl as [[sl sg]|].
  - destruct (Reqb_spec (sg - sl) 0) as [E0|E0].
    + splits; try discriminate; [|intros ? ? ? [= <- <-] [[? ?]|[? ?]]; exfalso; lra|intros ? ? ? [= <- <-] [[? ?]|[? ?]]; exfalso; lra].
      intros VF. split; [discriminate|]. intros [a [b [[= <- <-] [? _]]]]. exfalso. lra.
    + cbv zeta. set (VF := (x - sl) / (sg - sl)). assert (EV : VF * (sg - sl) = x - sl) by (unfold VF; field; exact E0).
      assert (U : forall V, V * sg + (1 - V) * sl = x -> V = VF).
      { intros V E. assert (Q : (V - VF) * (sg - sl) = 0) by lra. apply Rmult_integral in Q. lra. }
      destruct (Rleb_spec 0 VF) as [L0|L0]; cbn [andb]; [destruct (Rleb_spec VF 1) as [L1|L1]|].
      * splits; try discriminate.
        -- intros V. split; [intros [= <-]; exists sl, sg; split; [reflexivity|]; split; [lra|]; split; lra|].
           intros [a [b [[= <- <-] [_ [_ E]]]]]. f_equal. symmetry. apply U. exact E.
        -- intros a b s [= <- <-] C. exfalso. destruct C as [[C1 C2]|[C1 C2]].
           ++ assert (0 <= VF * (sg - sl)) by (apply Rmult_le_pos; lra). lra.
           ++ assert (0 <= VF * (sl - sg)) by (apply Rmult_le_pos; lra). lra.
        -- intros a b s [= <- <-] C. exfalso. destruct C as [[C1 C2]|[C1 C2]].
           ++ assert (0 <= (1 - VF) * (sg - sl)) by (apply Rmult_le_pos; lra). lra.
           ++ assert (0 <= (1 - VF) * (sl - sg)) by (apply Rmult_le_pos; lra). lra.
      * rewrite Rltb_false by lra. destruct (Two2 gas liquid) as [T1 [T2 [T3 T4]]]. splits.
        -- intros V. split; [intros H; exfalso; eapply T1; eauto|]. intros [a [b [[= <- <-] [_ [HV E]]]]]. apply U in E. lra.
        -- exact T2.
        -- exact T3.
        -- intros a b s [= <- <-] C. exfalso. destruct C as [[C1 C2]|[C1 C2]].
           ++ assert (0 <= VF * (sg - sl)) by (apply Rmult_le_pos; lra). lra.
           ++ assert (0 <= VF * (sl - sg)) by (apply Rmult_le_pos; lra). lra.
        -- intros a b s _ _. apply T4.
        -- discriminate.
      * rewrite Rltb_true by lra. destruct (Two2 liquid gas) as [T1 [T2 [T3 T4]]]. splits.
        -- intros V. split; [intros H; exfalso; eapply T1; eauto|]. intros [a [b [[= <- <-] [_ [HV E]]]]]. apply U in E. lra.
        -- intros s H. apply T2 in H. tauto.
        -- intros H. apply T3 in H. tauto.
        -- intros a b s _ _. apply T4.
        -- intros a b s [= <- <-] C. exfalso. destruct C as [[C1 C2]|[C1 C2]].
           ++ assert (0 < (- VF) * (sg - sl)) by (apply Rmult_lt_0_compat; lra). lra.
           ++ assert (0 < (- VF) * (sl - sg)) by (apply Rmult_lt_0_compat; lra). lra.
        -- discriminate.
  - destruct (Two2 gas liquid) as [T1 [T2 [T3 T4]]]. splits.
    + intros V. split; [intros H; exfalso; eapply T1; eauto|]. intros [a [b [? _]]]. discriminate.
    + exact T2.
    + exact T3.
    + discriminate.
    + discriminate.
    + intros s _. apply T4.
Qed.
(* when no solution is kept the function ends without a return statement: the caller gets None instead of an exception *)
Theorem C58_returns_None_refuted : forall cubic sl sg spec_val, sl < sg -> spec_val < sl -> VL_bound_first cubic (Some (sl, sg)) None None spec_val = B_None.
Proof.
  intros cubic sl sg x H1 H2. unfold VL_bound_first. rewrite Reqb_false by lra. cbv zeta.
  assert (L : (x - sl) / (sg - sl) < 0). { apply (Rmult_lt_reg_r (sg - sl)); [lra|]. unfold Rdiv. rewrite Rmult_assoc, Rinv_l by lra. lra. }
  rewrite Rleb_false by exact L. cbn [andb]. rewrite Rltb_true by exact L. reflexivity.
Qed.

(* --- cases that meet the hypotheses --- *)
Definition st0 (n : nat) (k : kind) (c z : R) : pstate := {| p_name := n; p_kind := k; crit := c; Zf := z |}.
Example C58_hypotheses_met :
  let gas := Some {| T_min := 0; at_spec := Some (st0 0 Gas 3 1) |} in
  let liquids := [{| T_min := 400; at_spec := None |}; {| T_min := 0; at_spec := Some (st0 1 Liquid 3 (/ 10)) |}] in
  let solids := [{| T_min := 0; at_spec := Some (st0 2 Solid 5 0) |}] in
  kinds gas liquids solids /\ no_exception gas liquids solids (Some 300) /\ (forall s, candidate gas liquids solids (Some 300) s -> crit s < 10 ^ 100) /\
  flash_TPV Other_package true gas liquids solids (Some 300) = As_liquid (st0 1 Liquid 3 (/ 10)).
Proof.
  cbv zeta. assert (Big : 5 < 10 ^ 100). { apply Rlt_trans with (10 ^ 1); [lra|]. apply Rlt_pow; [lra|lia]. }
  split; [|split; [|split]].
  - split; [|split].
    + intros g s [= <-] [= <-]. reflexivity.
    + intros l s [<-|[<-|[]]] E; [discriminate|]. injection E as <-. reflexivity.
    + intros o s [<-|[]] [= <-]. reflexivity.
  - intros o [g [= <-] _|l [<-|[<-|[]]] F|s [<-|[]]]; try discriminate. cbn in F. lra.
  - intros s [o [[g [= <-] _|l [<-|[<-|[]]] F|o' [<-|[]]] E]]; try discriminate E; injection E as <-; unfold st0; cbn [crit]; lra.
  - unfold flash_TPV, general_TPV, try_gas. cbn [T_min at_spec]. rewrite Rltb_true by lra. cbn [try_liquids T_min at_spec]. rewrite Rltb_true by lra.
    rewrite (Rltb_false 300 0) by lra. unfold st0. cbn [crit fst Zf]. rewrite Rltb_false by lra. rewrite Reqb_true by reflexivity. cbn [andb].
    rewrite (Rltb_true (/ 10)) by lra. cbn [try_solids at_spec crit fst]. rewrite Rltb_false by lra. reflexivity.
Qed.
Example C58_HSGUA_hypotheses_met :
  let vl := Some {| spec_l := 0; spec_g := 10; crit_l := 1; crit_g := 2 |} in
  let attempts := [Some {| s_T := 300; s_state := st0 0 Gas 4 1 |}; None] in
  bounded_criterion vl attempts /\ (true = true -> forall a, In (Some a) attempts -> s_T a <> 1) /\
  flash_TPV_HSGUA true vl attempts None [] 5 = Two (/ 2).
Proof.
  cbv zeta. assert (Big : 5 < 10 ^ 100). { apply Rlt_trans with (10 ^ 1); [lra|]. apply Rlt_pow; [lra|lia]. }
  split; [|split].
  - split; [intros a [[= <-]|[?|[]]]; [cbn [s_state st0 crit]; lra|discriminate]|]. intros s [= <-]. cbn [crit_l crit_g]. lra.
  - intros _ a [[= <-]|[?|[]]]; [cbn; lra|discriminate].
  - unfold flash_TPV_HSGUA, lever. cbv zeta. cbn [spec_l spec_g crit_l crit_g best1 fold_left s_state st0 crit]. rewrite Reqb_false by lra.
    assert (E : (5 - 0) / (10 - 0) = / 2) by field. rewrite E. rewrite (Rleb_true 0 (/ 2)), (Rleb_true (/ 2) 1) by lra. cbn [andb].
    rewrite Rltb_true by lra. reflexivity.
Qed.
