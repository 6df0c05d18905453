(* C57: saturation of a pure component: vapour-liquid at T or P, and solid-fluid at T or P. *)
From Coq Require Import Reals List Bool Arith Lra Lia.
From Coquelicot Require Import Coquelicot.
From Verif Require Import Base BaseFacts Model_satpure.
Import ListNotations.
Open Scope R_scope.

(* --- specification --- *)
(* a saturation point: two phases at the same T and P, of these two phase objects, with equal fugacities *)
Definition saturated (a b : phase) (T P : R) (sa sb : state) : Prop :=
  sa = {| of := a; at_T := T; at_P := P |} /\ sb = {| of := b; at_T := T; at_P := P |} /\ fugacity a T P = fugacity b T P.
(* solvers that return a root of the objective, having evaluated it *)
Definition secant_finds_roots (s : secant_t) : Prop := forall f x r q, s f x = Root r q -> q = r /\ f r = Some 0.
Definition newton_finds_roots (s : newton_t) : Prop := forall f x r q, s f x = Root r q -> q = r /\ option_map fst (f r) = Some 0.
(* the derivatives a phase object gives are those of its fugacity *)
Definition good_derivatives (p : phase) : Prop :=
  (forall T P, is_derive (fun T => fugacity p T P) T (dfugacity_dT p T P)) /\ (forall T P, is_derive (fun P => fugacity p T P) P (dfugacity_dP p T P)).

Lemma lowest_cons p ps T P : lowest (p :: ps) T P = Some {| of := p; at_T := T; at_P := P |}.
Proof. reflexivity. Qed.
Lemma lowest_nil T P : lowest [] T P = None.
Proof. reflexivity. Qed.

Lemma finish_ok (eval : R -> option evaluated) s r p a b err : finish eval s r = Ret (p, a, b, err) ->
  exists q e, r = Root p q /\ eval q = Some e /\ a = e_a e /\ b = e_b e /\ err = e_err e.
Proof.
  unfold finish. intros H. destruct (eval s); [|discriminate]. destruct r as [p' q|]; [|discriminate]. destruct (eval q) as [e'|] eqn:E; [|discriminate].
  injection H as <- <- <- <-. exists q, e'. auto.
Qed.
Lemma not_trivial_ok r x : not_trivial r = Ret x -> r = Ret x /\ ev Z (snd (fst (fst x))) <> ev Z (snd (fst x)).
Proof.
  unfold not_trivial. intros H. destruct r as [[[[p l] g] err]|]; [|discriminate]. destruct (Reqb_spec (ev Z l) (ev Z g)) as [|n]; [discriminate|].
  injection H as <-. split; [reflexivity|exact n].
Qed.

(* --- vapour and liquid, general packages --- *)
(* The phases returned are the first liquid and the gas, at the given T and the pressure evaluated last; the error is the difference of
   their fugacities, and their compressibility factors differ. With a solver that finds roots they are saturated at the returned P. *)
Theorem C57_TVF : forall secant f Psat Tsat l ls T P sl sg err, kind f = Any Psat Tsat -> f_liquids f = l :: ls ->
  flash_TVF secant f T = Ret (P, sl, sg, err) ->
  (exists Q, sl = {| of := l; at_T := T; at_P := Q |} /\ sg = {| of := f_gas f; at_T := T; at_P := Q |} /\
     err = fugacity l T Q - fugacity (f_gas f) T Q /\ Z l T Q <> Z (f_gas f) T Q /\ (exists g s, secant g s = Root P Q /\ / 100 <= s)) /\
  (secant_finds_roots secant -> saturated l (f_gas f) T P sl sg).
Proof.
  intros secant f Psat Tsat l ls T P sl sg err Hk Hl H. unfold flash_TVF in H. rewrite Hk in H. apply not_trivial_ok in H. destruct H as [H Hz].
  cbn [fst snd] in Hz. unfold TVF_pure_secant in H. destruct (Rltb_spec (match Psat T with Some p => p | None => 100000 end) P_MIN_FIXED) as [|Hlo]; [discriminate|].
  unfold by_secant in H. rewrite Hl in H. apply finish_ok in H. destruct H as [q [e [Hs [He [-> [-> ->]]]]]].
  unfold vl_eval in He. rewrite lowest_cons in He. injection He as <-. cbn [e_a e_b e_err] in *. unfold ev in *. cbn in Hz |- *. split.
  - exists q. repeat split; try exact Hz. eexists _, _. split; [exact Hs|]. unfold P_MIN_FIXED in Hlo. lra.
  - intros Hroot. destruct (Hroot _ _ _ _ Hs) as [-> E]. cbn in E. injection E as E. unfold ev in E. cbn in E. unfold saturated. repeat split. lra.
Qed.
Theorem C57_PVF : forall newton f Psat Tsat l ls P T sl sg err, kind f = Any Psat Tsat -> f_liquids f = l :: ls ->
  flash_PVF newton f P = Ret (T, sl, sg, err) ->
  (exists Q, sl = {| of := l; at_T := Q; at_P := P |} /\ sg = {| of := f_gas f; at_T := Q; at_P := P |} /\
     err = fugacity l Q P - fugacity (f_gas f) Q P /\ Z l Q P <> Z (f_gas f) Q P /\ (exists g s, newton g s = Root T Q /\ Tsat P = Some s)) /\
  (newton_finds_roots newton -> saturated l (f_gas f) T P sl sg).
Proof.
  intros newton f Psat Tsat l ls P T sl sg err Hk Hl H. unfold flash_PVF in H. rewrite Hk in H. destruct (Tsat P) as [s|] eqn:Es; [|discriminate].
  apply not_trivial_ok in H. destruct H as [H Hz].
  cbn [fst snd] in Hz. unfold PVF_pure_newton, by_newton in H. rewrite Hl in H. apply finish_ok in H. destruct H as [q [e [Hs [He [-> [-> ->]]]]]].
  unfold vl_eval in He. rewrite lowest_cons in He. injection He as <-. cbn [e_a e_b e_err] in *. unfold ev in *. cbn in Hz |- *. split.
  - exists q. repeat split; try exact Hz. eexists _, _. split; [exact Hs|reflexivity].
  - intros Hroot. destruct (Hroot _ _ _ _ Hs) as [-> E]. cbn in E. injection E as E. unfold ev in E. cbn in E. unfold saturated. repeat split. lra.
Qed.

(* --- solid and fluid --- *)
(* Below the triple point the fluid is the gas, otherwise the first liquid; the solid is the first. *)
Definition fluid (f : flasher) (below : Prop) (p : phase) : Prop := (below /\ p = f_gas f) \/ (~ below /\ hd_error (f_liquids f) = Some p).
Theorem C57_TSF : forall newton f T P so ss err, flash_TSF newton f T = Ret (P, so, ss, err) ->
  exists o s Q, fluid f (T < f_Tt f) o /\ hd_error (f_solids f) = Some s /\
    so = {| of := o; at_T := T; at_P := Q |} /\ ss = {| of := s; at_T := T; at_P := Q |} /\ err = fugacity o T Q - fugacity s T Q /\
    (newton_finds_roots newton -> saturated o s T P so ss).
Proof.
  intros newton f T P so ss err H. unfold flash_TSF, TSF_pure_newton in H.
  destruct (Rltb_spec T (f_Tt f)) as [L|L]; unfold by_newton in H; apply finish_ok in H; destruct H as [q [e [Hs [He [-> [-> ->]]]]]];
    unfold sf_eval in He; destruct (f_solids f) as [|s ss'] eqn:E1; try discriminate He; rewrite lowest_cons in He.
  - rewrite lowest_cons in He. injection He as <-. exists (f_gas f), s, q. cbn. split; [left; auto|]. split; [reflexivity|]. split; [reflexivity|]. split; [reflexivity|]. split; [reflexivity|].
    intros Hroot. destruct (Hroot _ _ _ _ Hs) as [-> E]. cbn in E. injection E as E. unfold ev in E. cbn in E. unfold saturated. repeat split. lra.
  - destruct (f_liquids f) as [|o os] eqn:E2; [discriminate He|]. rewrite lowest_cons in He. injection He as <-. exists o, s, q. cbn.
    split; [right; rewrite E2; auto|]. split; [reflexivity|]. split; [reflexivity|]. split; [reflexivity|]. split; [reflexivity|].
    intros Hroot. destruct (Hroot _ _ _ _ Hs) as [-> E]. cbn in E. injection E as E. unfold ev in E. cbn in E. unfold saturated. repeat split. lra.
Qed.
Theorem C57_PSF : forall newton f P T so ss err, flash_PSF newton f P = Ret (T, so, ss, err) ->
  exists o s Q, fluid f (P < f_Pt f) o /\ hd_error (f_solids f) = Some s /\
    so = {| of := o; at_T := Q; at_P := P |} /\ ss = {| of := s; at_T := Q; at_P := P |} /\ err = fugacity o Q P - fugacity s Q P /\
    (newton_finds_roots newton -> saturated o s T P so ss).
Proof.
  intros newton f P T so ss err H. unfold flash_PSF, PSF_pure_newton in H.
  destruct (Rltb_spec P (f_Pt f)) as [L|L]; unfold by_newton in H; apply finish_ok in H; destruct H as [q [e [Hs [He [-> [-> ->]]]]]];
    unfold sf_eval in He; destruct (f_solids f) as [|s ss'] eqn:E1; try discriminate He; rewrite lowest_cons in He.
  - rewrite lowest_cons in He. injection He as <-. exists (f_gas f), s, q. cbn. split; [left; auto|]. split; [reflexivity|]. split; [reflexivity|]. split; [reflexivity|]. split; [reflexivity|].
    intros Hroot. destruct (Hroot _ _ _ _ Hs) as [-> E]. cbn in E. injection E as E. unfold ev in E. cbn in E. unfold saturated. repeat split. lra.
  - destruct (f_liquids f) as [|o os] eqn:E2; [discriminate He|]. rewrite lowest_cons in He. injection He as <-. exists o, s, q. cbn.
    split; [right; rewrite E2; auto|]. split; [reflexivity|]. split; [reflexivity|]. split; [reflexivity|]. split; [reflexivity|].
    intros Hroot. destruct (Hroot _ _ _ _ Hs) as [-> E]. cbn in E. injection E as E. unfold ev in E. cbn in E. unfold saturated. repeat split. lra.
Qed.

(* --- the derivatives handed to the Newton solver --- *)
Definition with_derivative (eval : R -> option evaluated) : Prop :=
  forall x, exists e, eval x = Some e /\ is_derive (fun x => match eval x with Some e => e_err e | None => 0 end) x (e_derr e).
Theorem C57_derivatives : forall l ls gas s sl, good_derivatives l -> good_derivatives gas -> good_derivatives s ->
  (forall T, with_derivative (vl_eval dfugacity_dP (l :: ls) gas T)) /\ (forall P, with_derivative (fun T => vl_eval dfugacity_dT (l :: ls) gas T P)) /\
  (forall T, with_derivative (sf_eval dfugacity_dP (l :: ls) (s :: sl) T)) /\ (forall P, with_derivative (fun T => sf_eval dfugacity_dT (l :: ls) (s :: sl) T P)).
Proof.
  intros l ls gas s sl [L1 L2] [G1 G2] [S1 S2].
  split; [|split; [|split]]; intros y x; (eexists; split; [reflexivity|]); cbn [vl_eval sf_eval e_err e_derr]; unfold ev; cbn;
    apply (is_derive_minus (K := R_AbsRing) (V := R_NormedModule));
    first [apply L1|apply L2|apply G1|apply G2|apply S1|apply S2].
Qed.

(* --- packages with their own saturation curve --- *)
(* one equation of state: refused above its critical point, else both phases at the equation's saturation pressure or temperature *)
Theorem C57_same_EOS : forall secant newton f Tc Pc Psat Tsat l ls x, kind f = Same_EOS Tc Pc Psat Tsat -> f_liquids f = l :: ls ->
  (Tc < x -> flash_TVF secant f x = Exn Impossible) /\
  (x <= Tc -> flash_TVF secant f x = Ret (Psat x, {| of := l; at_T := x; at_P := Psat x |}, {| of := f_gas f; at_T := x; at_P := Psat x |}, 0)) /\
  (Pc < x \/ Tsat x = None -> flash_PVF newton f x = Exn Impossible) /\
  (forall T, x <= Pc -> Tsat x = Some T ->
     flash_PVF newton f x = Ret (T, {| of := l; at_T := T; at_P := x |}, {| of := f_gas f; at_T := T; at_P := x |}, 0)).
Proof.
  intros secant newton f Tc Pc Psat Tsat l ls x Hk Hl. unfold flash_TVF, flash_PVF. rewrite Hk, Hl. cbn [hd_error]. splits.
  - intros H. rewrite (Rltb_true _ _ H). reflexivity.
  - intros H. rewrite (Rltb_false _ _ H). reflexivity.
  - intros H. destruct (Rltb_spec Pc x); [reflexivity|]. destruct H as [H| ->]; [lra|reflexivity].
  - intros T H E. rewrite (Rltb_false _ _ H), E. reflexivity.
Qed.
(* ideal gas and activity coefficients: saturated when the fugacity of the liquid at its vapour pressure is that pressure *)
Theorem C57_IG_activity : forall secant newton f Psat Tsat l ls x, kind f = IG_activity Psat Tsat -> f_liquids f = l :: ls ->
  (forall T P, fugacity (f_gas f) T P = P) -> (forall T, fugacity l T (Psat T) = Psat T) ->
  (exists sl sg, flash_TVF secant f x = Ret (Psat x, sl, sg, 0) /\ saturated l (f_gas f) x (Psat x) sl sg) /\
  (forall T, Tsat x = Some T -> Psat T = x -> exists sl sg, flash_PVF newton f x = Ret (T, sl, sg, 0) /\ saturated l (f_gas f) T x sl sg).
Proof.
  intros secant newton f Psat Tsat l ls x Hk Hl Hg Hf. unfold flash_TVF, flash_PVF. rewrite Hk, Hl. cbn [hd_error]. split.
  - eexists _, _. split; [reflexivity|]. unfold saturated. repeat split. rewrite Hg. apply Hf.
  - intros T -> E. eexists _, _. split; [reflexivity|]. unfold saturated. repeat split. rewrite Hg, <- E. apply Hf.
Qed.

(* --- findings --- *)
(* The search for the liquid of lowest Gibbs energy is never run: with a second, more stable liquid the answer is the metastable
   saturation pressure of the first, for every solver that finds roots *)
Definition flat (f : R) : phase := {| fugacity := fun _ _ => f; dfugacity_dT := fun _ _ => 0; dfugacity_dP := fun _ _ => 0; G := fun _ _ => ln f; Z := fun _ _ => 0 |}.
Definition ideal : phase := {| fugacity := fun _ P => P; dfugacity_dT := fun _ _ => 0; dfugacity_dP := fun _ _ => 1; G := fun _ P => ln P; Z := fun _ _ => 1 |}.
Definition two_liquids : flasher :=
  {| kind := Any (fun _ => Some 1) (fun _ => Some 300); f_liquids := [flat 2; flat 1]; f_gas := ideal; f_solids := [flat (/ 2); flat (/ 3)]; f_Tt := 0; f_Pt := 0;
     Psub := fun _ => 1; Tsub := fun _ => 1 |}.
Theorem C57_lowest_liquid_refuted :
  (forall secant T P sl sg err, secant_finds_roots secant -> flash_TVF secant two_liquids T = Ret (P, sl, sg, err) ->
     P = 2 /\ ev G sl = ln 2 /\ exists l, In l (f_liquids two_liquids) /\ G l T P < ev G sl /\ G l T P < ev G sg) /\
  exists secant, secant_finds_roots secant /\ exists r, flash_TVF secant two_liquids 300 = Ret r.
Proof.
  split.
  - intros secant T P sl sg err Hs H. destruct (C57_TVF secant two_liquids _ _ (flat 2) [flat 1] T P sl sg err eq_refl eq_refl H) as [_ S].
    destruct (S Hs) as [-> [-> E]]. cbn in E. subst P. unfold ev. cbn. split; [reflexivity|]. split; [reflexivity|].
    exists (flat 1). split; [right; left; reflexivity|]. cbn. rewrite ln_1. pose proof (ln_increasing 1 2 Rlt_0_1 ltac:(lra)) as L. rewrite ln_1 in L. auto.
  - exists (fun f x => match f 2 with Some v => if Req_EM_T v 0 then Root 2 2 else Failed | None => Failed end). split.
    + intros f x r q H. destruct (f 2) as [v|] eqn:E; [|discriminate]. destruct (Req_EM_T v 0) as [E0|]; [|discriminate]. injection H as <- <-. rewrite E, E0. auto.
    + eexists. unfold flash_TVF, two_liquids. cbn [kind f_liquids f_gas]. unfold TVF_pure_secant. rewrite Rltb_false by (unfold P_MIN_FIXED; lra).
      unfold by_secant, finish, vl_eval. rewrite !lowest_cons. cbn. unfold ev. cbn. destruct (Req_EM_T (2 - 2) 0) as [|n]; [|exfalso; apply n; lra].
      cbn. unfold ev. cbn. rewrite Reqb_false by lra. reflexivity.
Qed.
(* without a liquid the general flashes end in an AttributeError on None, whatever the solver *)
Theorem C57_no_liquid_refuted : forall secant newton f Psat Tsat, kind f = Any Psat Tsat -> f_liquids f = [] ->
  (forall T p, Psat T = Some p -> / 100 <= p -> flash_TVF secant f T = Exn NoneAttribute) /\
  (forall P T, Tsat P = Some T -> flash_PVF newton f P = Exn NoneAttribute) /\
  (forall T, f_Tt f <= T -> flash_TSF newton f T = Exn NoneAttribute).
Proof.
  intros secant newton f Psat Tsat Hk Hl. unfold flash_TVF, flash_PVF, flash_TSF. rewrite Hk, Hl. splits.
  - intros T p -> Hp. unfold TVF_pure_secant. rewrite Rltb_false by (unfold P_MIN_FIXED; lra). reflexivity.
  - intros P T ->. reflexivity.
  - intros T HT. rewrite (Rltb_false _ _ HT). unfold TSF_pure_newton, by_newton, finish, sf_eval. destruct (f_solids f); reflexivity.
Qed.
(* at or above the triple pressure the melting temperature is searched from 1000000 K *)
Theorem C57_melting_start_refuted : forall f P, f_Pt f <= P -> exists g : R -> option (R * R), forall newton,
  f_liquids f <> [] -> f_solids f <> [] ->
  (newton g 1000000 = Failed -> flash_PSF newton f P = Exn SolverError) /\
  (forall T Q, newton g 1000000 = Root T Q -> exists a b e, flash_PSF newton f P = Ret (T, a, b, e)).
Proof.
  intros f P HP. exists (fun x => option_map (fun e => (e_err e, e_derr e)) (sf_eval dfugacity_dT (f_liquids f) (f_solids f) x P)).
  intros newton Hl Hs. unfold flash_PSF. rewrite (Rltb_false _ _ HP). unfold PSF_pure_newton, by_newton, finish.
  assert (E : forall x, exists e, sf_eval dfugacity_dT (f_liquids f) (f_solids f) x P = Some e).
  { intros x. destruct (f_liquids f) as [|l ls]; [congruence|]. destruct (f_solids f) as [|s ss]; [congruence|]. eexists. reflexivity. }
  destruct (E 1000000) as [e ->]. split.
  - intros ->. reflexivity.
  - intros T Q ->. destruct (E Q) as [e' ->]. eexists _, _, _. reflexivity.
Qed.
(* a vapour pressure guess below 0.01 Pa is refused *)
Theorem C57_too_low : forall secant f Psat Tsat T p, kind f = Any Psat Tsat -> Psat T = Some p -> p < / 100 -> flash_TVF secant f T = Exn TooLow.
Proof.
  intros secant f Psat Tsat T p Hk Hp H. unfold flash_TVF. rewrite Hk, Hp. unfold TVF_pure_secant. rewrite Rltb_true by exact H. reflexivity.
Qed.

(* --- cases that meet the hypotheses --- *)
Example C57_hypotheses_met : kind two_liquids = Any (fun _ => Some 1) (fun _ => Some 300) /\ f_liquids two_liquids = [flat 2; flat 1] /\
  good_derivatives (flat 2) /\ good_derivatives ideal /\
  (exists newton, newton_finds_roots newton /\ exists r, flash_TSF newton {| kind := kind two_liquids; f_liquids := []; f_gas := ideal; f_solids := [flat 3]; f_Tt := 273; f_Pt := 600;
       Psub := fun _ => 1; Tsub := fun _ => 1 |} 200 = Ret r).
Proof.
  split; [reflexivity|]. split; [reflexivity|]. split; [|split].
  - split; intros; cbn; apply (is_derive_const (K := R_AbsRing) (V := R_NormedModule)).
  - split; intros; cbn; [apply (is_derive_const (K := R_AbsRing) (V := R_NormedModule))|apply (is_derive_id (K := R_AbsRing))].
  - exists (fun f x => match f 3 with Some (v, _) => if Req_EM_T v 0 then Root 3 3 else Failed | None => Failed end). split.
    + intros f x r q H. destruct (f 3) as [[v d]|] eqn:E; [|discriminate]. destruct (Req_EM_T v 0) as [E0|]; [|discriminate]. injection H as <- <-.
      rewrite E. cbn. rewrite E0. auto.
    + eexists. unfold flash_TSF. cbn [f_Tt f_gas f_solids f_liquids Psub]. rewrite Rltb_true by lra. unfold TSF_pure_newton, by_newton, finish, sf_eval.
      rewrite !lowest_cons. cbn. unfold ev. cbn. destruct (Req_EM_T (3 - 3) 0) as [|n]; [|exfalso; apply n; lra]. reflexivity.
Qed.
