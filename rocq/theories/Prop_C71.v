(* C71: derivatives of the fugacity coefficients of cubic mixtures with temperature and pressure, and derivatives of their
   volumetric derivatives with amounts. *)
From Coq Require Import Reals Lra Lia Arith Bool FunctionalExtensionality.
From Coquelicot Require Import Coquelicot.
From Verif Require Import Base BaseFacts Spec_eos EosFacts EosCurve Spec_mix MixFacts Gen_eos Gen_mix Gen_eosmix MixDeriv MixParams Gen_lnphi LnphiFacts Gen_dlnphi Prop_C02 Prop_C03 Prop_C04 Prop_C17.
Open Scope R_scope.

(* ---- loops over several lists at once ---- *)
Lemma loop5 n (f1 f2 f3 f4 f5 : nat -> R) o1 o2 o3 o4 o5 :
  loop n (fun i st_ => let '(a1, a2, a3, a4, a5) := st_ in (upd a1 i (f1 i), upd a2 i (f2 i), upd a3 i (f3 i), upd a4 i (f4 i), upd a5 i (f5 i))) (o1, o2, o3, o4, o5)
  = (loop n (fun i a => upd a i (f1 i)) o1, loop n (fun i a => upd a i (f2 i)) o2, loop n (fun i a => upd a i (f3 i)) o3,
     loop n (fun i a => upd a i (f4 i)) o4, loop n (fun i a => upd a i (f5 i)) o5).
Proof. induction n as [|n IH]; cbn [loop]; [reflexivity|]. rewrite IH. reflexivity. Qed.

Lemma loop10 n (f1 f2 f3 f4 f5 f6 f7 f8 f9 f10 : nat -> R) o1 o2 o3 o4 o5 o6 o7 o8 o9 o10 :
  loop n (fun i st_ => let '(a1, a2, a3, a4, a5, a6, a7, a8, a9, a10) := st_ in
    (upd a1 i (f1 i), upd a2 i (f2 i), upd a3 i (f3 i), upd a4 i (f4 i), upd a5 i (f5 i), upd a6 i (f6 i), upd a7 i (f7 i), upd a8 i (f8 i), upd a9 i (f9 i), upd a10 i (f10 i)))
    (o1, o2, o3, o4, o5, o6, o7, o8, o9, o10)
  = (loop n (fun i a => upd a i (f1 i)) o1, loop n (fun i a => upd a i (f2 i)) o2, loop n (fun i a => upd a i (f3 i)) o3,
     loop n (fun i a => upd a i (f4 i)) o4, loop n (fun i a => upd a i (f5 i)) o5, loop n (fun i a => upd a i (f6 i)) o6,
     loop n (fun i a => upd a i (f7 i)) o7, loop n (fun i a => upd a i (f8 i)) o8, loop n (fun i a => upd a i (f9 i)) o9, loop n (fun i a => upd a i (f10 i)) o10).
Proof. induction n as [|n IH]; cbn [loop]; [reflexivity|]. rewrite IH. reflexivity. Qed.

Definition stored18 : Type := R * R * R * R * R * R * R * R * R * R * R * R * R * R * R * R * R * R.
(* the fifteen volumetric derivatives of a phase, in the order dP_dT, dP_dV, dV_dT, dV_dP, dT_dV, dT_dP, d2P_dT2, d2P_dV2, d2V_dT2,
   d2V_dP2, d2T_dV2, d2T_dP2, d2V_dPdT, d2P_dTdV, d2T_dPdV *)
Definition volumetric (o : stored18) (k : nat) : R :=
  let '(c0, c1, c2, c3, c4, c5, c6, c7, c8, c9, c10, c11, c12, c13, c14, _, _, _) := o in
  List.nth k (c0 :: c1 :: c2 :: c3 :: c4 :: c5 :: c6 :: c7 :: c8 :: c9 :: c10 :: c11 :: c12 :: c13 :: c14 :: nil)%list 0.
(* one entry of fifteen lists *)
Definition vec : Type := nat -> R.
Definition entry15 (o : vec * vec * vec * vec * vec * vec * vec * vec * vec * vec * vec * vec * vec * vec * vec) (i k : nat) : R :=
  let '(c0, c1, c2, c3, c4, c5, c6, c7, c8, c9, c10, c11, c12, c13, c14) := o in
  List.nth k (c0 i :: c1 i :: c2 i :: c3 i :: c4 i :: c5 i :: c6 i :: c7 i :: c8 i :: c9 i :: c10 i :: c11 i :: c12 i :: c13 i :: c14 i :: nil)%list 0.

(* ---- derivatives of the volumetric derivatives along a change of composition at constant T and P ---- *)
Section Composition.
Variables (T P : R) (V b d e a a1 a2 : R -> R) (t : R).
Variables (n i : nat) (dV db dd de da da1 da2 : nat -> R).
Hypotheses (Hi : (i < n)%nat).
Hypotheses (DV : is_derive V t (dV i)) (Db : is_derive b t (db i)) (Dd : is_derive d t (dd i)) (De : is_derive e t (de i))
  (Da : is_derive a t (da i)) (Da1 : is_derive a1 t (da1 i)) (Da2 : is_derive a2 t (da2 i)).
Hypotheses (Hb : V t <> b t) (Hq : V t ^ 2 + d t * V t + e t <> 0).

Let Qi s := 1 / (V s * (V s + d s) + e s).
Let Bi s := 1 / (V s - b s).
Let pT s := Rgas * Bi s - a1 s * Qi s.
Let pV s := (V s + V s + d s) * (a s * (Qi s * Qi s)) - Rgas * T * (Bi s * Bi s).
Let pTT s := - a2 s * Qi s.
Let hVV s := a s * (Qi s * Qi s) + Rgas * T * (Bi s * Bi s) * Bi s - a s * (V s + V s + d s) * ((V s + V s + d s) * (Qi s * Qi s)) * Qi s.
Let pVV s := hVV s + hVV s.
Let pTV s := a1 s * ((V s + V s + d s) * (Qi s * Qi s)) - Rgas * (Bi s * Bi s).

Lemma main_derivs : let '(l1, l2, l3, l4, l5) := GCEOSMIX_dmain_dnx (V t) db dd de da da1 da2 dV T P (a t) (e t) (d t) (b t) (a1 t) n (a2 t) in
  is_derive pT t (l1 i) /\ is_derive pV t (l2 i) /\ is_derive pTT t (l3 i) /\ is_derive pVV t (l4 i) /\ is_derive pTV t (l5 i).
Proof.
  unfold GCEOSMIX_dmain_dnx. cbv zeta. rewrite (loop5 n). rewrite !loop_upd_lt by exact Hi.
  assert (HQ : V t * (V t + d t) + e t <> 0) by (intros E; apply Hq; rewrite <- E; ring).
  assert (HB : V t - b t <> 0) by lra.
  unfold pT, pV, pTT, pVV, pTV, hVV, Qi, Bi.
  splits; (auto_derive; [splits; try (eexists; eassumption); auto; try (replace (V t + - b t) with (V t - b t) by ring); try (repeat apply Rmult_integral_contrapositive_currified; auto; lra)|]);
    dv DV; dv Db; dv Dd; dv De; dv Da; dv Da1; dv Da2; chR.
  all: replace (e t + V t ^ 2 + V t * d t) with (V t * (V t + d t) + e t) by ring.
  all: field; splits; auto; try lra.
Qed.

Let D s := derivatives_and_departures T P (V s) (b s) (d s) (e s) (a s) (a1 s) (a2 s).
Let o := D t.

Lemma vol_form s : exists h1 h2 h3, D s = 
  (pT s, pV s, - pT s * (1 / pV s), 1 / pV s, 1 / (- pT s * (1 / pV s)), 1 / pT s, pTT s, pVV s,
   - (pTT s * pV s - pT s * pTV s) * ((1 / pV s) * (1 / pV s)) + (pTV s * pV s - pT s * pVV s) * ((1 / pV s) * ((1 / pV s) * (1 / pV s))) * pT s,
   - pVV s * ((1 / pV s) * ((1 / pV s) * (1 / pV s))),
   - (pVV s * pT s - pV s * pTV s) * ((1 / pT s) * (1 / pT s)) + (pTV s * pT s - pV s * pTT s) * ((1 / pT s) * (1 / pT s) * (1 / pT s)) * pV s,
   - pTT s * ((1 / pT s) * (1 / pT s) * (1 / pT s)),
   - (pTV s * pV s - pT s * pVV s) * ((1 / pV s) * ((1 / pV s) * (1 / pV s))),
   pTV s,
   - (pTV s * pT s - pV s * pTT s) * ((1 / pT s) * (1 / pT s) * (1 / pT s)), h1, h2, h3).
Proof. do 3 eexists. reflexivity. Qed.

Lemma dnz_derivs : pT t <> 0 -> pV t <> 0 ->
  let '(l1, l2, l3, l4, l5) := GCEOSMIX_dmain_dnx (V t) db dd de da da1 da2 dV T P (a t) (e t) (d t) (b t) (a1 t) n (a2 t) in
  forall k, (k < 15)%nat -> is_derive (fun s => volumetric (D s) k) t
    (entry15 (GCEOSMIX_dnz (V t) true n l1 l2 l3 l4 l5 (volumetric o 0) (volumetric o 1) (volumetric o 2) (volumetric o 6) (volumetric o 7) (volumetric o 13)) i k).
Proof.
  intros NT NV. pose proof main_derivs as M. destruct (GCEOSMIX_dmain_dnx _ _ _ _ _ _ _ _ _ _ _ _ _ _ _ _ _) as [[[[l1 l2] l3] l4] l5].
  destruct M as (M1 & M2 & M3 & M4 & M5).
  assert (E0 : volumetric o 0 = pT t /\ volumetric o 1 = pV t /\ volumetric o 2 = - pT t * (1 / pV t) /\ volumetric o 6 = pTT t /\ volumetric o 7 = pVV t /\ volumetric o 13 = pTV t).
  { unfold o. destruct (vol_form t) as (h1 & h2 & h3 & ->). splits; reflexivity. }
  destruct E0 as (-> & -> & -> & -> & -> & ->).
  unfold GCEOSMIX_dnz. cbv zeta. rewrite (loop10 n).
  assert (VF : forall k, (fun s => volumetric (D s) k) = (fun s => List.nth k (pT s :: pV s :: - pT s * (1 / pV s) :: 1 / pV s :: 1 / (- pT s * (1 / pV s)) :: 1 / pT s :: pTT s :: pVV s ::
   (- (pTT s * pV s - pT s * pTV s) * ((1 / pV s) * (1 / pV s)) + (pTV s * pV s - pT s * pVV s) * ((1 / pV s) * ((1 / pV s) * (1 / pV s))) * pT s) ::
   - pVV s * ((1 / pV s) * ((1 / pV s) * (1 / pV s))) ::
   (- (pVV s * pT s - pV s * pTV s) * ((1 / pT s) * (1 / pT s)) + (pTV s * pT s - pV s * pTT s) * ((1 / pT s) * (1 / pT s) * (1 / pT s)) * pV s) ::
   - pTT s * ((1 / pT s) * (1 / pT s) * (1 / pT s)) ::
   - (pTV s * pV s - pT s * pVV s) * ((1 / pV s) * ((1 / pV s) * (1 / pV s))) ::
   pTV s ::
   - (pTV s * pT s - pV s * pTT s) * ((1 / pT s) * (1 / pT s) * (1 / pT s)) :: nil)%list 0)).
  { intros k. apply functional_extensionality; intros s. destruct (vol_form s) as (h1 & h2 & h3 & ->). reflexivity. }
  intros k Hk. rewrite VF. clear VF. clearbody pT pV pTT pVV pTV.
  unfold entry15. rewrite !loop_upd_lt by exact Hi.
  do 15 (try destruct k as [|k]); try lia.
  all: cbn [List.nth]; try assumption.
  all: auto_derive; [splits; try (eexists; eassumption); auto|].
  all: try (repeat (apply Rmult_integral_contrapositive_currified || apply Ropp_neq_0_compat || apply Rinv_neq_0_compat); auto; lra).
  all: dv M1; dv M2; try dv M3; try dv M4; try dv M5; chR; field; splits; auto.
Qed.
End Composition.

(* Along any differentiable change of composition at constant T and P, the lists returned by GCEOSMIX._dnz_derivatives_and_departures
   hold the derivatives of the fifteen stored volumetric derivatives. *)
Theorem C71_curve : forall T P (V b d e a a1 a2 : R -> R) t n i dV db dd de da da1 da2,
  (i < n)%nat ->
  is_derive V t (dV i) -> is_derive b t (db i) -> is_derive d t (dd i) -> is_derive e t (de i) ->
  is_derive a t (da i) -> is_derive a1 t (da1 i) -> is_derive a2 t (da2 i) ->
  regular_V (b t) (d t) (e t) (V t) ->
  let D s := derivatives_and_departures T P (V s) (b s) (d s) (e s) (a s) (a1 s) (a2 s) in
  let o := D t in
  volumetric o 0 <> 0 -> volumetric o 1 <> 0 ->
  let '(l1, l2, l3, l4, l5) := GCEOSMIX_dmain_dnx (V t) db dd de da da1 da2 dV T P (a t) (e t) (d t) (b t) (a1 t) n (a2 t) in
  forall k, (k < 15)%nat -> is_derive (fun s => volumetric (D s) k) t
    (entry15 (GCEOSMIX_dnz (V t) true n l1 l2 l3 l4 l5 (volumetric o 0) (volumetric o 1) (volumetric o 2) (volumetric o 6) (volumetric o 7) (volumetric o 13)) i k).
Proof.
  intros T P V b d e a a1 a2 t n i dV db dd de da da1 da2 Hi DV Db Dd De Da Da1 Da2 [Hb Hq] D o N0 N1.
  apply dnz_derivs; auto.
Qed.

Ltac cR := match goal with |- @eq _ ?x ?y => change (@eq R x y) end.
(* With respect to mole numbers: dV_dns as computed by eos_mix_dV_dzs (the routine behind GCEOSMIX.dV_dns). *)
Theorem C71_amounts : forall n T P zs (bf df ef af a1f a2f Vf : (nat -> R) -> R) db dd de da da1 da2 i out,
  0 < T -> 0 < P -> rsum n zs = 1 -> (i < n)%nat ->
  partial (fun ns => bf (fractions n ns)) zs i (db i) -> partial (fun ns => df (fractions n ns)) zs i (dd i) ->
  partial (fun ns => ef (fractions n ns)) zs i (de i) -> partial (fun ns => af (fractions n ns)) zs i (da i) ->
  partial (fun ns => a1f (fractions n ns)) zs i (da1 i) -> partial (fun ns => a2f (fractions n ns)) zs i (da2 i) ->
  let b := bf zs in let d := df zs in let e := ef zs in let a := af zs in let V := Vf zs in
  0 < d * d - 4 * e -> above_poles b d e V -> volume_root n T P bf df ef af Vf zs i ->
  Derive (fun v => P_cubic (fun _ => a) b d e T v) V <> 0 ->
  let D ns := let x := fractions n ns in derivatives_and_departures T P (Vf ns) (bf x) (df x) (ef x) (af x) (a1f x) (a2f x) in
  let o := derivatives_and_departures T P V b d e a (a1f zs) (a2f zs) in
  let dV := eos_mix_dV_dzs T P (P * V / (Rgas * T)) b d e a db dd de da n out in
  volumetric o 0 <> 0 ->
  let '(l1, l2, l3, l4, l5) := GCEOSMIX_dmain_dnx V db dd de da da1 da2 dV T P a e d b (a1f zs) n (a2f zs) in
  forall k, (k < 15)%nat -> partial (fun ns => volumetric (D ns) k) zs i
    (entry15 (GCEOSMIX_dnz V true n l1 l2 l3 l4 l5 (volumetric o 0) (volumetric o 1) (volumetric o 2) (volumetric o 6) (volumetric o 7) (volumetric o 13)) i k).
Proof.
  intros n T P zs bf df ef af a1f a2f Vf db dd de da da1 da2 i out HT HP Hz Hi Db Dd De Da Da1 Da2 b d e a V HD Hp HV Hn D o dV N0.
  pose proof (C17_volume_derivative n T P zs bf df ef af Vf db dd de da i out HT HP Hz Hi Db Dd De Da HD Hp HV Hn) as DV.
  destruct Hp as [Hb Hs]. pose proof (Kf_Q_pos d e V HD Hs) as HQ.
  assert (EF : fractions n (upd zs i (zs i)) = zs) by (rewrite upd_self; apply fractions_one; auto).
  assert (EU : upd zs i (zs i) = zs) by apply upd_self.
  pose proof (C71_curve T P (fun s => Vf (upd zs i s)) (fun s => bf (fractions n (upd zs i s))) (fun s => df (fractions n (upd zs i s))) (fun s => ef (fractions n (upd zs i s)))
    (fun s => af (fractions n (upd zs i s))) (fun s => a1f (fractions n (upd zs i s))) (fun s => a2f (fractions n (upd zs i s))) (zs i) n i dV db dd de da da1 da2 Hi DV Db Dd De Da Da1 Da2) as C.
  cbv beta zeta in C. rewrite EF, EU in C.
  apply C.
  - split; [apply Rgt_not_eq; exact Hb|apply Rgt_not_eq; exact HQ].
  - exact N0.
  - intros E. apply Hn. apply is_derive_unique. unfold P_cubic. auto_derive; [splits; auto; apply Rgt_not_eq; fold V b d e; lra|].
    unfold volumetric, derivatives_and_departures, main_derivatives_and_departures in E. cbv zeta in E. cbn [List.nth] in E. fold b d e a V in E. rewrite <- E. field.
    splits; apply Rgt_not_eq; try lra; fold V b d e; try lra; try nra.
Qed.

(* ---- classes with formulas of their own ---- *)
Ltac lp Hi := match goal with |- context [loop ?n (fun x_ w => upd w x_ (@?f x_)) ?o ?i] => rewrite (loop_upd_lt n f o i Hi) end.

Lemma pos_loc (f : R -> R) s : ex_derive f s -> 0 < f s -> locally s (fun x => 0 < f x).
Proof.
  intros E H. apply (ex_derive_continuous (K := R_AbsRing) (V := R_NormedModule)) in E.
  apply (E (fun v => 0 < v)). apply (open_gt 0); auto.
Qed.

(* SRKMIX (also TWUSRKMIX, APISRKMIX): pressure *)
Theorem C71_SRK_P : forall n T P (Z : R -> R) b a bs rows lnphis i (dZ : R) zs phase,
  0 < T -> 0 < P -> 0 < b -> a <> 0 -> (i < n)%nat -> is_derive Z P dZ -> b * P / (Rgas * T) < Z P ->
  is_derive (fun p => SRK_lnphis T p (Z p) b a bs rows n lnphis i) P (SRKMIX_dlnphis_dP phase zs (Z P) dZ a n bs b T rows P i).
Proof.
  intros n T P Z b a bs rows lnphis i dZ zs phase HT HP Hb Ha Hi DZ HB. pose proof Rgas_pos as HR.
  unfold SRKMIX_dlnphis_dP. cbv zeta. lp Hi.
  assert (HB0 : 0 < b * P / (Rgas * T)) by (apply Rdiv_lt_0_compat; apply Rmult_lt_0_compat; lra).
  eapply is_derive_ext. { intros p. symmetry. unfold SRK_lnphis. cbv zeta. lp Hi. reflexivity. }
  assert (N1 : 0 < Z P * (Rgas * T) - b * P). { apply Rmult_lt_reg_r with (/ (Rgas * T)); [apply Rinv_0_lt_compat; nra|]. rewrite Rmult_0_l. replace ((Z P * (Rgas * T) - b * P) * / (Rgas * T)) with (Z P - b * P / (Rgas * T)) by (field; lra). lra. }
  assert (S1 : T * Rgas <> 0) by nz. assert (S2 : b * P * / (T * Rgas) <> 0) by (apply Rgt_not_eq; rewrite (Rmult_comm T); exact HB0).
  assert (S3 : 0 < Z P + - (b * P * / (T * Rgas))) by (rewrite (Rmult_comm T); unfold Rdiv in HB; lra).
  assert (S4 : 0 < 1 + b * P * / (T * Rgas) * / Z P).
  { rewrite (Rmult_comm T). unfold Rdiv in HB0, HB. assert (0 < b * P * / (Rgas * T) * / Z P) by (apply Rmult_lt_0_compat; [lra|apply Rinv_0_lt_compat; lra]). lra. }
  assert (S5 : Z P <> 0) by lra.
  auto_derive.
  - splits; try (eexists; eassumption); auto; nz.
  - dv DZ. cR. assert (0 < b * P) by nra. assert (0 < Z P) by lra. assert (0 < Rgas * T * Z P) by (repeat apply Rmult_lt_0_compat; lra). field. splits; try lra; nra.
Qed.

(* SRKMIX: temperature *)
Theorem C71_SRK_T : forall n T P (Z a : R -> R) b bs (rows : R -> nat -> R) (drows : nat -> R) lnphis i (dZ da : R) zs phase,
  0 < T -> 0 < P -> 0 < b -> a T <> 0 -> (i < n)%nat -> is_derive Z T dZ -> is_derive a T da -> is_derive (fun t => rows t i) T (drows i) ->
  b * P / (Rgas * T) < Z T ->
  is_derive (fun t => SRK_lnphis t P (Z t) b (a t) bs (rows t) n lnphis i) T (SRKMIX_dlnphis_dT phase zs (Z T) dZ drows n P bs b T (a T) da (rows T) i).
Proof.
  intros n T P Z a b bs rows drows lnphis i dZ da zs phase HT HP Hb Ha Hi DZ Da Dr HB. pose proof Rgas_pos as HR.
  unfold SRKMIX_dlnphis_dT. cbv zeta. lp Hi.
  assert (HB0 : 0 < b * P / (Rgas * T)) by (apply Rdiv_lt_0_compat; apply Rmult_lt_0_compat; lra).
  set (ri := fun t : R => rows t i). change (is_derive ri T (drows i)) in Dr. change (rows T i) with (ri T).
  apply (is_derive_ext (fun t => bs i * (((Z t - 1) * (1 / (b * P / (t * Rgas))) + a t * P / (t * Rgas * (t * Rgas)) * (1 / (b * P / (t * Rgas))) * (1 / (b * P / (t * Rgas))) * ln (1 + b * P / (t * Rgas) / Z t)) * (P / (t * Rgas)))
    - ln (Z t - b * P / (t * Rgas)) - a t * P / (t * Rgas * (t * Rgas)) * (1 / (b * P / (t * Rgas))) * (2 / a t) * ln (1 + b * P / (t * Rgas) / Z t) * ri t)).
  { intros t. unfold SRK_lnphis. cbv zeta. lp Hi. reflexivity. }
  clearbody ri.
  assert (N1 : 0 < Z T * (Rgas * T) - b * P). { apply Rmult_lt_reg_r with (/ (Rgas * T)); [apply Rinv_0_lt_compat; nra|]. rewrite Rmult_0_l. replace ((Z T * (Rgas * T) - b * P) * / (Rgas * T)) with (Z T - b * P / (Rgas * T)) by (field; lra). lra. }
  assert (S1 : T * Rgas <> 0) by nz. assert (S2 : b * P * / (T * Rgas) <> 0) by (apply Rgt_not_eq; rewrite (Rmult_comm T); exact HB0).
  assert (S3 : 0 < Z T + - (b * P * / (T * Rgas))) by (rewrite (Rmult_comm T); unfold Rdiv in HB; lra).
  assert (S4 : 0 < 1 + b * P * / (T * Rgas) * / Z T).
  { rewrite (Rmult_comm T). unfold Rdiv in HB0, HB. assert (0 < b * P * / (Rgas * T) * / Z T) by (apply Rmult_lt_0_compat; [lra|apply Rinv_0_lt_compat; lra]). lra. }
  assert (S5 : Z T <> 0) by lra.
  auto_derive.
  - splits; try (eexists; eassumption); try (exists (drows i); exact Dr); auto; nz.
  - dv DZ. dv Da. dv Dr.
    cR. replace (1 / Z T * (P * b * (1 / Rgas) * (1 / T)) + 1) with (1 + b * P * / (T * Rgas) * / Z T) by (field; splits; lra).
    assert (0 < b * P) by nra. assert (0 < Z T) by lra. assert (0 < Rgas * T * Z T) by (repeat apply Rmult_lt_0_compat; lra).
    generalize (ln (1 + b * P * / (T * Rgas) * / Z T)). intros L. field. splits; try lra; nra.
Qed.

(* VDWMIX: pressure and temperature; a_alpha_roots are the square roots of the pure components' a, which do not depend on temperature *)
Theorem C71_VDW_P : forall n T P (Z : R -> R) b a bs ais lnphis i (dZ : R) zs phase,
  0 < T -> 0 < P -> 0 < b -> 0 <= a -> 0 <= ais i -> (i < n)%nat -> is_derive Z P dZ -> b * P / (Rgas * T) < Z P ->
  is_derive (fun p => VDW_lnphis T p (Z p) b a bs (fun j => sqrt (ais j)) n lnphis i) P (VDWMIX_dlnphis_dP phase zs (Z P) dZ a n T P bs b ais i).
Proof.
  intros n T P Z b a bs ais lnphis i dZ zs phase HT HP Hb Ha Hai Hi DZ HB. pose proof Rgas_pos as HR.
  unfold VDWMIX_dlnphis_dP. cbv zeta. lp Hi. rewrite sqrt_mult by auto.
  assert (HB0 : 0 < b * P / (Rgas * T)) by (apply Rdiv_lt_0_compat; apply Rmult_lt_0_compat; lra).
  eapply is_derive_ext. { intros p. symmetry. unfold VDW_lnphis. cbv zeta. lp Hi. reflexivity. }
  assert (N1 : 0 < Z P * (Rgas * T) - b * P). { apply Rmult_lt_reg_r with (/ (Rgas * T)); [apply Rinv_0_lt_compat; nra|]. rewrite Rmult_0_l. replace ((Z P * (Rgas * T) - b * P) * / (Rgas * T)) with (Z P - b * P / (Rgas * T)) by (field; lra). lra. }
  assert (HZ : 0 < Z P) by lra. assert (HV : 0 < Z P * Rgas * T) by (repeat apply Rmult_lt_0_compat; lra).
  assert (S1 : P <> 0) by lra. assert (S0 : 0 < / P) by (apply Rinv_0_lt_compat; lra).
  assert (S2 : 0 < Z P * Rgas * T * / P) by (apply Rmult_lt_0_compat; auto).
  assert (S3 : 0 < Z P * Rgas * T * / P + - b). { replace (Z P * Rgas * T * / P + - b) with ((Z P * (Rgas * T) - b * P) * / P) by (field; lra). apply Rmult_lt_0_compat; auto. }
  assert (S4 : 0 < Z P * (1 + - (b * / (Z P * Rgas * T * / P)))).
  { apply Rmult_lt_0_compat; auto. replace (1 + - (b * / (Z P * Rgas * T * / P))) with ((Z P * (Rgas * T) - b * P) * / (Z P * Rgas * T)) by (field; splits; lra).
    apply Rmult_lt_0_compat; auto. apply Rinv_0_lt_compat; auto. }
  auto_derive.
  - splits; try (eexists; eassumption); auto; try (apply Rgt_not_eq; lra). apply Rgt_not_eq. repeat apply Rmult_lt_0_compat; auto.
  - dv DZ. cR. field. splits; try lra; try (apply Rlt_not_eq; nra); nra.
Qed.

Theorem C71_VDW_T : forall n T P (Z : R -> R) b a bs ais lnphis i (dZ : R) zs phase,
  0 < T -> 0 < P -> 0 < b -> 0 < a -> 0 <= ais i -> (i < n)%nat -> is_derive Z T dZ -> b * P / (Rgas * T) < Z T ->
  is_derive (fun t => VDW_lnphis t P (Z t) b a bs (fun j => sqrt (ais j)) n lnphis i) T (VDWMIX_dlnphis_dT phase zs (Z T) dZ n T P ais bs b a 0 i).
Proof.
  intros n T P Z b a bs ais lnphis i dZ zs phase HT HP Hb Ha Hai Hi DZ HB. pose proof Rgas_pos as HR.
  unfold VDWMIX_dlnphis_dT. cbv zeta. lp Hi. rewrite sqrt_mult by (auto; lra).
  assert (HB0 : 0 < b * P / (Rgas * T)) by (apply Rdiv_lt_0_compat; apply Rmult_lt_0_compat; lra).
  eapply is_derive_ext. { intros p. symmetry. unfold VDW_lnphis. cbv zeta. lp Hi. reflexivity. }
  assert (N1 : 0 < Z T * (Rgas * T) - b * P). { apply Rmult_lt_reg_r with (/ (Rgas * T)); [apply Rinv_0_lt_compat; nra|]. rewrite Rmult_0_l. replace ((Z T * (Rgas * T) - b * P) * / (Rgas * T)) with (Z T - b * P / (Rgas * T)) by (field; lra). lra. }
  assert (HZ : 0 < Z T) by lra. assert (HV : 0 < Z T * Rgas * T) by (repeat apply Rmult_lt_0_compat; lra).
  assert (S1 : P <> 0) by lra. assert (S0 : 0 < / P) by (apply Rinv_0_lt_compat; lra).
  assert (S2 : 0 < Z T * Rgas * T * / P) by (apply Rmult_lt_0_compat; auto).
  assert (S3 : 0 < Z T * Rgas * T * / P + - b). { replace (Z T * Rgas * T * / P + - b) with ((Z T * (Rgas * T) - b * P) * / P) by (field; lra). apply Rmult_lt_0_compat; auto. }
  assert (S4 : 0 < Z T * (1 + - (b * / (Z T * Rgas * T * / P)))).
  { apply Rmult_lt_0_compat; auto. replace (1 + - (b * / (Z T * Rgas * T * / P))) with ((Z T * (Rgas * T) - b * P) * / (Z T * Rgas * T)) by (field; splits; lra).
    apply Rmult_lt_0_compat; auto. apply Rinv_0_lt_compat; auto. }
  auto_derive.
  - splits; try (eexists; eassumption); auto; try (apply Rgt_not_eq; lra). apply Rgt_not_eq. repeat apply Rmult_lt_0_compat; auto.
  - dv DZ. cR. field. splits; try lra; try (apply Rlt_not_eq; nra); nra.
Qed.

(* PRMIX (also PR78MIX, PRSVMIX, PRSV2MIX, TWUPRMIX) *)
Definition PRf (T P Z b a bi r : R) : R :=
  let B := b * P / (Rgas * T) in
  bi / b * (Z - 1) - ln (Z - B) + a * (sqrt 2 / 4) / (b * Rgas * T) * (bi / b - 2 * r / a) * ln ((Z + (1 + sqrt 2) * B) / (Z + (1 - sqrt 2) * B)).

Lemma PR_entry n T P Z b a bs rows lnphis i : 0 < T -> 0 < P -> 0 < b -> a <> 0 -> (i < n)%nat -> b * P / (Rgas * T) < Z ->
  PR_lnphis T P Z b a bs rows n lnphis i = PRf T P Z b a (bs i) (rows i).
Proof.
  intros HT HP Hb Ha Hi HB. pose proof Rgas_pos as HR. unfold PR_lnphis, PRf. cbv zeta.
  pose proof (sqrt_lt_R0 2 ltac:(lra)) as S2. pose proof (sqrt_sqrt 2 ltac:(lra)) as SS2. assert (S1 : sqrt 2 < 2) by nra.
  assert (EB : b * (P * (1 / T)) * (1 / Rgas) = b * P / (Rgas * T)) by (field; lra). rewrite EB.
  set (B := b * P / (Rgas * T)) in *. assert (HB0 : 0 < B) by (unfold B; apply Rdiv_lt_0_compat; apply Rmult_lt_0_compat; lra).
  assert (Hq : 0 < (Z + B + B * sqrt 2) / (Z + B - B * sqrt 2)) by (apply Rdiv_lt_0_compat; nra).
  rewrite (Rleb_false (Z - B) 0), (Rleb_false _ 0 Hq) by lra.
  assert (HN : a * (B * sqrt 2 + B * sqrt 2) <> 0) by (apply Rmult_integral_contrapositive_currified; auto; nra).
  rewrite (Reqb_false _ _ HN). cbv iota beta. unfold negb. lp Hi.
  replace ((Z + (1 + sqrt 2) * B) / (Z + (1 - sqrt 2) * B)) with ((Z + B + B * sqrt 2) / (Z + B - B * sqrt 2)) by (f_equal; ring).
  generalize (ln ((Z + B + B * sqrt 2) / (Z + B - B * sqrt 2))) (ln (Z - B)). intros L1 L2.
  replace (a * (P * (1 / T)) * (1 / (Rgas * Rgas)) * (1 / T)) with (a * (B / b) / (Rgas * T)) by (unfold B; field; lra).
  replace (sqrt 2 / 4) with (1 / (2 * sqrt 2)) by (apply Rmult_eq_reg_r with (4 * (2 * sqrt 2)); [field_simplify; lra|lra]).
  field. splits; try lra; nra.
Qed.

Theorem C71_PR_P : forall n T P (Z : R -> R) b a bs rows lnphis i (dZ : R) zs phase,
  0 < T -> 0 < P -> 0 < b -> a <> 0 -> (i < n)%nat -> is_derive Z P dZ -> b * P / (Rgas * T) < Z P ->
  is_derive (fun p => PR_lnphis T p (Z p) b a bs rows n lnphis i) P (PRMIX_dlnphis_dP phase zs (Z P) dZ a bs b T P rows n i).
Proof.
  intros n T P Z b a bs rows lnphis i dZ zs phase HT HP Hb Ha Hi DZ HB. pose proof Rgas_pos as HR.
  pose proof (sqrt_lt_R0 2 ltac:(lra)) as S2. pose proof (sqrt_sqrt 2 ltac:(lra)) as SS2. assert (S1 : sqrt 2 < 2) by nra.
  unfold PRMIX_dlnphis_dP. cbv zeta. lp Hi.
  apply (is_derive_ext_loc (fun p => PRf T p (Z p) b a (bs i) (rows i))).
  { assert (L1 : locally P (fun p => 0 < p)) by (apply (pos_loc (fun p => p)); [auto_derive; auto|auto]).
    assert (L2 : locally P (fun p => 0 < Z p - b * p / (Rgas * T))).
    { apply (pos_loc (fun p => Z p - b * p / (Rgas * T))); [|lra]. auto_derive. splits; try (eexists; eassumption); nz. }
    generalize (filter_and _ _ L1 L2). apply filter_imp. intros p [H1 H2]. symmetry. apply PR_entry; auto; lra. }
  unfold PRf. set (B := b * P / (Rgas * T)) in *. assert (HB0 : 0 < B) by (unfold B; apply Rdiv_lt_0_compat; apply Rmult_lt_0_compat; lra).
  set (w := sqrt 2) in *. clearbody w.
  assert (Q1 : 0 < Z P + (1 + w) * B) by nra. assert (Q2 : 0 < Z P + (1 - w) * B) by nra.
  assert (EB : b * P * / (Rgas * T) = B) by reflexivity.
  auto_derive.
  - rewrite EB. splits; try (eexists; eassumption); auto; try nz; try lra; try (apply Rgt_not_eq; exact Q2). apply Rmult_lt_0_compat; auto; apply Rinv_0_lt_compat; exact Q2.
  - dv DZ. cR. rewrite EB. 
    assert (Q3 : 0 < (Z P + (1 + w) * B) / (Z P + (1 - w) * B)) by (apply Rdiv_lt_0_compat; auto).
    replace (P * (b * (1 / Rgas) * (1 / T))) with B by (unfold B; field; lra).
    replace (b * 1 * / (Rgas * T)) with (B / P) by (unfold B; field; lra).
    replace (b * (1 / Rgas) * (1 / T)) with (B / P) by (unfold B; field; lra).
    replace Rgas with (b * P / (B * T)) by (unfold B; field; lra).
    clearbody B.
    field. splits; try lra; nra.
Qed.

Theorem C71_PR_T : forall n T P (Z a : R -> R) b bs (rows : R -> nat -> R) (drows : nat -> R) lnphis i (dZ da : R) zs phase,
  0 < T -> 0 < P -> 0 < b -> a T <> 0 -> (i < n)%nat -> is_derive Z T dZ -> is_derive a T da -> is_derive (fun t => rows t i) T (drows i) ->
  b * P / (Rgas * T) < Z T ->
  is_derive (fun t => PR_lnphis t P (Z t) b (a t) bs (rows t) n lnphis i) T (PRMIX_dlnphis_dT phase zs (Z T) dZ bs b n T (a T) P da (rows T) drows i).
Proof.
  intros n T P Z a b bs rows drows lnphis i dZ da zs phase HT HP Hb Ha Hi DZ Da Dr HB. pose proof Rgas_pos as HR.
  pose proof (sqrt_lt_R0 2 ltac:(lra)) as S2. pose proof (sqrt_sqrt 2 ltac:(lra)) as SS2. assert (S1 : sqrt 2 < 2) by nra.
  unfold PRMIX_dlnphis_dT. cbv zeta. lp Hi.
  set (ri := fun t : R => rows t i). change (is_derive ri T (drows i)) in Dr. change (rows T i) with (ri T).
  apply (is_derive_ext_loc (fun t => PRf t P (Z t) b (a t) (bs i) (ri t))).
  { assert (L1 : locally T (fun p => 0 < p)) by (apply (pos_loc (fun p => p)); [auto_derive; auto|auto]).
    assert (L2 : locally T (fun p => 0 < Z p - b * P / (Rgas * p))).
    { apply (pos_loc (fun p => Z p - b * P / (Rgas * p))); [|lra]. auto_derive. splits; try (eexists; eassumption); nz. }
    assert (L3 : locally T (fun p => a p <> 0)).
    { assert (E : ex_derive a T) by (eexists; eassumption). apply (ex_derive_continuous (K := R_AbsRing) (V := R_NormedModule)) in E. apply (E (fun v => v <> 0)). apply (open_neq 0); auto. }
    generalize (filter_and _ _ L1 (filter_and _ _ L2 L3)). apply filter_imp. intros p (H1 & H2 & H3). symmetry. apply PR_entry; auto; lra. }
  unfold PRf. clearbody ri. set (B := b * P / (Rgas * T)) in *. assert (HB0 : 0 < B) by (unfold B; apply Rdiv_lt_0_compat; apply Rmult_lt_0_compat; lra).
  set (w := sqrt 2) in *. clearbody w.
  assert (Q1 : 0 < Z T + (1 + w) * B) by nra. assert (Q2 : 0 < Z T + (1 - w) * B) by nra.
  assert (EB : b * P * / (Rgas * T) = B) by reflexivity.
  replace (P * b * (1 / Rgas) * (1 / T)) with B by (unfold B; field; lra).
  assert (EL : - ((Z T + (w + 1) * B) / ((w - 1) * B - Z T)) = (Z T + (1 + w) * B) / (Z T + (1 - w) * B)) by (field; lra).
  rewrite EL.
  assert (LP : 0 < ln ((Z T + (1 + w) * B) / (Z T + (1 - w) * B))).
  { rewrite <- ln_1. apply ln_increasing; [lra|]. apply Rmult_lt_reg_r with (Z T + (1 - w) * B); auto. unfold Rdiv. rewrite Rmult_assoc, Rinv_l by lra. nra. }
  auto_derive.
  - rewrite EB. splits; try (eexists; eassumption); auto; try nz; try lra; try (apply Rgt_not_eq; exact Q2). apply Rmult_lt_0_compat; auto; apply Rinv_0_lt_compat; exact Q2.
  - dv DZ. dv Da. dv Dr. cR. rewrite EB.
    assert (Q3 : 0 < (Z T + (1 + w) * B) / (Z T + (1 - w) * B)) by (apply Rdiv_lt_0_compat; auto).
    replace (b * P * (- (Rgas * 1) * / (Rgas * T * (Rgas * T)))) with (- B / T) by (unfold B; field; lra).
    replace (1 / T * (1 / T) * (P * b * (1 / Rgas))) with (B / T) by (unfold B; field; lra).
    change (ln ((Z T + (1 + w) * B) * / (Z T + (1 - w) * B))) with (ln ((Z T + (1 + w) * B) / (Z T + (1 - w) * B))).
    set (L := ln ((Z T + (1 + w) * B) / (Z T + (1 - w) * B))) in *. clearbody L.
    clearbody B. field. splits; try lra; nra.
Qed.

(* ---- the general formula (GCEOSMIX; also RKMIX and the translated equations) ---- *)
Lemma general_value T P V b d e a n db da dd de lnphis i : 0 < T -> 0 < P -> (i < n)%nat -> 0 < d * d - 4 * e -> above_poles b d e V ->
  P_cubic (fun _ => a) b d e T V = P ->
  eos_mix_lnphis_general T P (P * V / (Rgas * T)) b d e a n db da dd de lnphis i = eos_lnphi T P V b d e a + dlnf T P V b d e a 0 (db i) (dd i) (de i) (da i).
Proof.
  intros HT HP Hi HD Hp HE. pose proof Rgas_pos as HR. unfold eos_mix_lnphis_general. cbv zeta. lp Hi.
  assert (E1 : P * V / (Rgas * T) * Rgas * T / P = V) by (field; splits; lra).
  assert (E2 : P * V / (Rgas * T) * (Rgas * T) / P = V) by (field; splits; lra).
  rewrite E1. f_equal. destruct Hp as [Hb Hs].
  assert (HV2 : above_poles b d e (P * V / (Rgas * T) * (Rgas * T) / P)) by (rewrite E2; split; assumption).
  rewrite (proj1 (helper_entry T P b d e a n (P * V / (Rgas * T)) db de dd _ da _ i Hi HT HP HD HV2)).
  rewrite E2. apply dlnf_on_eos; auto; try lra. apply Rgt_not_eq. apply (Kf_Q_pos d e V); auto.
Qed.

Lemma poles_loc b d e (V : R -> R) s : ex_derive V s -> above_poles b d e (V s) -> locally s (fun x => above_poles b d e (V x)).
Proof.
  intros E [H1 H2].
  assert (L1 : locally s (fun x => 0 < V x - b)) by (apply (pos_loc (fun x => V x - b)); [auto_derive; auto|lra]).
  assert (L2 : locally s (fun x => 0 < 2 * V x + d - sqrt (d * d - 4 * e))) by (apply (pos_loc (fun x => 2 * V x + d - sqrt (d * d - 4 * e))); [auto_derive; auto|lra]).
  generalize (filter_and _ _ L1 L2). apply filter_imp. intros x [A B]. split; lra.
Qed.

Lemma dV_dP_val a da d2a b d e T P V : regular_V b d e V -> dV_dP (Prop_C04.dd a da d2a b d e T P V) = 1 / (- Rgas * T / (V - b) ^ 2 + a T * (2 * V + d) / (V ^ 2 + d * V + e) ^ 2).
Proof. intros Hr. rewrite dd_eq by auto. reflexivity. Qed.

(* the composition part of ln(phi_i), which depends on T and V only, and its derivative with V *)
Lemma comp_V T P (V : R -> R) b d e a b' d' e' a' s V' : 0 < T -> 0 < d * d - 4 * e -> above_poles b d e (V s) -> is_derive V s V' ->
  let Q := V s ^ 2 + d * V s + e in let w := 2 * V s + d in let D := d * d - 4 * e in let x := d' * d - 2 * e' in
  is_derive (fun p => dlnf T P (V p) b d e a 0 b' d' e' a') s
    (V' * (a' / (Rgas * T * Q) - b' / (V s - b) ^ 2 - 2 * a * x / (Rgas * T * Q * D) - a * w * (d' - x * w / D) / (2 * Q ^ 2 * Rgas * T))).
Proof.
  intros HT HD Hp DV Q w D x. pose proof Rgas_pos as HR. destruct Hp as [Hb Hs]. pose proof (Kf_Q_pos d e (V s) HD Hs) as HQ. fold Q in HQ.
  assert (CK : is_derive (fun p => Kf d e (V p)) s (- V' / Q)).
  { pose proof (Kf_derive d e (V s) HD ltac:(apply Rgt_not_eq; exact HQ)) as DK. eapply is_derive_eq. apply (is_derive_comp (Kf d e) V s _ _ DK DV).
    fold Q. cR. change (V' * (- / Q) = - V' / Q). field. lra. }
  set (k := fun p : R => Kf d e (V p)). change (is_derive k s (- V' / Q)) in CK.
  apply (is_derive_ext (fun p => 0 * (P / (Rgas * T) - 1 / (V p - b) + a / (Rgas * T * (V p ^ 2 + d * V p + e)))
    - a' * k p / (Rgas * T) + b' / (V p - b) + a / (Rgas * T) * (x * k p / D + (d' - x * (2 * V p + d) / D) / (2 * (V p ^ 2 + d * V p + e))))).
  { intros p. reflexivity. }
  clearbody k. assert (NQ : V s ^ 2 + d * V s + e <> 0) by (apply Rgt_not_eq; exact HQ).
  assert (ND : D <> 0) by (apply Rgt_not_eq; exact HD). assert (NR : Rgas * T <> 0) by nz. clearbody D x.
  auto_derive.
  - splits; try (eexists; eassumption); auto; try (apply Rmult_integral_contrapositive_currified; auto; lra); try lra; try nz.
  - dv DV. dv CK. cR. unfold Q, w. field. splits; auto; lra.
Qed.

(* pressure derivative, for whatever lists of dV_dns and d2V_dPdns *)
Theorem C71_general_P : forall n T P (Vf a da d2a : R -> R) b d e db ddl de dal dVn d2Vn lnphis i phase Z,
  0 < T -> 0 < P -> (i < n)%nat -> 0 < d * d - 4 * e -> above_poles b d e (Vf P) -> 0 < Vf P ->
  is_derive a T (da T) -> is_derive da T (d2a T) ->
  locally P (fun p => ex_derive Vf p /\ P_cubic a b d e T (Vf p) = p) ->
  Derive (fun v => P_cubic a b d e T v) (Vf P) <> 0 ->
  let o := Prop_C04.dd a da d2a b d e T P (Vf P) in
  let dH := eos_dH_dep_dP d (Vf P) e (dV_dP o) P T (da T) (a T) in
  let lnphis_at p := eos_mix_lnphis_general T p (p * Vf p / (Rgas * T)) b d e (a T) n db dal ddl de lnphis i in
  is_derive lnphis_at P (GCEOSMIX_dlnphis_dP phase (Vf P) Z (dV_dP o) dH T (eos_dS_dep_dP_l (Vf P) (dV_dP o) d e (da T) b P) P dVn ddl de dal db d2Vn b d e (a T) n i) /\
  is_derive lnphis_at P (GCEOSMIX_dlnphis_dP phase (Vf P) Z (dV_dP o) dH T (eos_dS_dep_dP_g (Vf P) (dV_dP o) d e (da T) b P) P dVn ddl de dal db d2Vn b d e (a T) n i).
Proof.
  intros n T P Vf a da d2a b d e db ddl de dal dVn d2Vn lnphis i phase Z HT HP Hi HD Hp HV Ha Hda L Hne o dH lnphis_at.
  pose proof Rgas_pos as HR. pose proof Hp as [Hb Hs]. pose proof (Kf_Q_pos d e (Vf P) HD Hs) as HQ.
  assert (Hr : regular_V b d e (Vf P)) by (split; apply Rgt_not_eq; lra).
  destruct (C04_V_of_P a da d2a b d e T P Vf Ha Hr L Hne) as (DV & _). fold o in DV.
  destruct (C03_HS_isotherm a da d2a b d e T P Vf HD Ha Hda Hr L Hne) as [DH DS]. fold o in DH, DS. fold dH in DH.
  destruct (DS HT HP HV Hb) as [DSl DSg]. clear DS.
  assert (EP : P_cubic a b d e T (Vf P) = P) by (apply (locally_singleton _ _ L)).
  assert (E1 : dV_dP o = 1 / (- Rgas * T / (Vf P - b) ^ 2 + a T * (2 * Vf P + d) / (Vf P ^ 2 + d * Vf P + e) ^ 2)) by (apply dV_dP_val; auto).
  assert (HPV : - Rgas * T / (Vf P - b) ^ 2 + a T * (2 * Vf P + d) / (Vf P ^ 2 + d * Vf P + e) ^ 2 <> 0).
  { intros E. apply Hne. apply is_derive_unique. unfold P_cubic. auto_derive; [splits; auto; apply Rgt_not_eq; lra|]. rewrite <- E. field. split; apply Rgt_not_eq; lra. }
  assert (G : forall dS : R, is_derive (fun p => S_dep a da d2a b d e T p (Vf p)) P dS ->
    is_derive lnphis_at P (GCEOSMIX_dlnphis_dP phase (Vf P) Z (dV_dP o) dH T dS P dVn ddl de dal db d2Vn b d e (a T) n i)).
  { intros dS DS.
    pose proof (comp_V T P Vf b d e (a T) (db i) (ddl i) (de i) (dal i) P (dV_dP o) HT HD Hp DV) as DC. cbv zeta in DC.
    set (h := fun p : R => H_dep a da d2a b d e T p (Vf p)). change (is_derive h P dH) in DH. set (s := fun p : R => S_dep a da d2a b d e T p (Vf p)). change (is_derive s P dS) in DS.
    set (c := fun p : R => dlnf T P (Vf p) b d e (a T) 0 (db i) (ddl i) (de i) (dal i)). match type of DC with is_derive _ _ ?v => set (cv := v); change (is_derive c P cv) in DC end.
    apply (is_derive_ext_loc (fun p => (h p - T * s p) / (Rgas * T) + c p)).
    { assert (L1 : locally P (fun p => 0 < p)) by (apply (pos_loc (fun p => p)); [auto_derive; auto|auto]).
      assert (L2 := poles_loc b d e Vf P (ex_intro _ _ DV) Hp).
      generalize (filter_and _ _ L (filter_and _ _ L1 L2)). apply filter_imp. intros p ((_ & Q1) & Q2 & Q3). unfold lnphis_at.
      rewrite general_value by auto. f_equal. symmetry. destruct (C02_lnphi b d e T p (Vf p) (a T) (da T) (d2a T) HT Q2 HD Q3) as [X _]. exact X.
      unfold c, dlnf. ring. }
    clearbody h s c.
    apply is_derive_eq with ((dH - T * dS) / (Rgas * T) + cv).
    { assert (NR : Rgas * T <> 0) by nz. auto_derive; [splits; try (eexists; eassumption); auto|]. dv DH. dv DS. dv DC. cR. field. lra. }
    unfold cv.
    unfold GCEOSMIX_dlnphis_dP. cbv zeta. lp Hi. cR.
    clearbody dH. rename dH into dHv. set (V := Vf P) in *. set (Q := V ^ 2 + d * V + e) in *. set (D := d * d - 4 * e) in *.
    assert (EQ : (d + 2 * V) ^ 2 = 4 * Q + D) by (unfold Q, D; ring).
    replace (d ^ 2 - 4 * e) with D by (unfold D; ring).
    replace ((d + 2 * V) ^ 2 * (1 / D) - 1) with (4 * Q / D) by (rewrite EQ; field; lra).
    assert (EPP : P = Rgas * T / (V - b) - a T / Q) by (symmetry; exact EP).
    set (VP := dV_dP o) in *. 
    assert (C1 : 1 + VP * (Rgas * T / (V - b) ^ 2 - a T * (2 * V + d) / Q ^ 2) = 0).
    { set (PV := - Rgas * T / (V - b) ^ 2 + a T * (2 * V + d) / Q ^ 2) in *. replace (Rgas * T / (V - b) ^ 2 - a T * (2 * V + d) / Q ^ 2) with (- PV) by (unfold PV; field; splits; lra).
      rewrite E1. clearbody PV. field. exact HPV. }
    assert (C4 : P / (Rgas * T) - 1 / (V - b) + a T / (Rgas * T * Q) = 0) by (rewrite EPP; field; splits; lra).
    match goal with |- ?x = ?y => transitivity (x + (dVn i) / (Rgas * T) * (1 + VP * (Rgas * T / (V - b) ^ 2 - a T * (2 * V + d) / Q ^ 2)) + (d2Vn i) * (P / (Rgas * T) - 1 / (V - b) + a T / (Rgas * T * Q))); [rewrite C1, C4; ring|] end.
    clearbody VP Q D V. clear C1 C4 EPP EP. field. splits; try lra. }
  split; apply G; assumption.
Qed.

Lemma dV_dT_val a da d2a b d e T P V : regular_V b d e V -> dV_dT (Prop_C04.dd a da d2a b d e T P V)
  = - (Rgas / (V - b) - da T / (V ^ 2 + d * V + e)) * (1 / (- Rgas * T / (V - b) ^ 2 + a T * (2 * V + d) / (V ^ 2 + d * V + e) ^ 2)).
Proof. intros Hr. rewrite dd_eq by auto. reflexivity. Qed.

Lemma comp_T P (V a a' : R -> R) b d e b' d' e' T V' da da' : 0 < T -> 0 < d * d - 4 * e -> above_poles b d e (V T) ->
  is_derive V T V' -> is_derive a T da -> is_derive a' T da' ->
  let Q := V T ^ 2 + d * V T + e in let w := 2 * V T + d in let D := d * d - 4 * e in let x := d' * d - 2 * e' in let K := Kf d e (V T) in
  is_derive (fun t => dlnf t P (V t) b d e (a t) 0 b' d' e' (a' t)) T
    (V' * (a' T / (Rgas * T * Q) - b' / (V T - b) ^ 2 - 2 * a T * x / (Rgas * T * Q * D) - a T * w * (d' - x * w / D) / (2 * Q ^ 2 * Rgas * T))
     - da' * K / (Rgas * T) + a' T * K / (Rgas * T ^ 2) + (da / (Rgas * T) - a T / (Rgas * T ^ 2)) * (x * K / D + (d' - x * w / D) / (2 * Q))).
Proof.
  intros HT HD Hp DV Da Da' Q w D x K. pose proof Rgas_pos as HR. destruct Hp as [Hb Hs]. pose proof (Kf_Q_pos d e (V T) HD Hs) as HQ. fold Q in HQ.
  assert (CK : is_derive (fun p => Kf d e (V p)) T (- V' / Q)).
  { pose proof (Kf_derive d e (V T) HD ltac:(apply Rgt_not_eq; exact HQ)) as DK. eapply is_derive_eq. apply (is_derive_comp (Kf d e) V T _ _ DK DV).
    fold Q. cR. change (V' * (- / Q) = - V' / Q). field. lra. }
  set (k := fun p : R => Kf d e (V p)). change (is_derive k T (- V' / Q)) in CK. change K with (k T).
  apply (is_derive_ext (fun p => 0 * (P / (Rgas * p) - 1 / (V p - b) + a p / (Rgas * p * (V p ^ 2 + d * V p + e)))
    - a' p * k p / (Rgas * p) + b' / (V p - b) + a p / (Rgas * p) * (x * k p / D + (d' - x * (2 * V p + d) / D) / (2 * (V p ^ 2 + d * V p + e))))).
  { intros p. reflexivity. }
  clearbody k. assert (NQ : V T ^ 2 + d * V T + e <> 0) by (apply Rgt_not_eq; exact HQ).
  assert (ND : D <> 0) by (apply Rgt_not_eq; exact HD). assert (NR : Rgas * T <> 0) by nz. clearbody D x.
  auto_derive.
  - splits; try (eexists; eassumption); auto; try (apply Rmult_integral_contrapositive_currified; auto; lra); try lra; try nz.
  - dv DV. dv CK. dv Da. dv Da'. cR. unfold Q, w. field. splits; auto; lra.
Qed.

(* With temperature, along a volume that solves the equation of state at constant pressure. The lists dV_dns and d2V_dTdns may hold
   anything: their coefficients vanish on the equation of state. *)
Theorem C71_general_T : forall n T P (Vf a da d2a d3a : R -> R) b d e db ddl de (dal : R -> nat -> R) (dalT : nat -> R) dVn d2Vn lnphis i phase Z zs,
  0 < T -> 0 < P -> (i < n)%nat -> 0 < d * d - 4 * e -> above_poles b d e (Vf T) -> 0 < Vf T ->
  smooth3 a da d2a d3a T -> is_derive (fun t => dal t i) T (dalT i) ->
  locally T (fun t => ex_derive Vf t /\ P_cubic a b d e t (Vf t) = P) ->
  Derive (fun v => P_cubic a b d e T v) (Vf T) <> 0 ->
  let V := Vf T in
  let o := Prop_C04.dd a da d2a b d e T P V in
  let h := H_dep a da d2a b d e T P V in let s := S_dep a da d2a b d e T P V in
  let lnphis_at t := eos_mix_lnphis_general t P (P * Vf t / (Rgas * t)) b d e (a t) n db (dal t) ddl de lnphis i in
  is_derive lnphis_at T (GCEOSMIX_dlnphis_dT phase T P zs n V Z (dV_dT o) (eos_dS_dep_dT_l V (dV_dT o) (a T) d e T (da T) b (d2a T)) s
    (eos_dH_dep_dT_l V (dV_dT o) (a T) d e P T (d2a T) (da T)) h d2Vn dVn db (dal T) dalT ddl de b (a T) d e (da T) i) /\
  (V <= 10 ^ 50 -> is_derive lnphis_at T (GCEOSMIX_dlnphis_dT phase T P zs n V Z (dV_dT o) (eos_dS_dep_dT_g V (dV_dT o) (a T) d e T (da T) b (d2a T) s) s
    (eos_dH_dep_dT_g V (dV_dT o) (a T) d e P T (d2a T) (da T) h) h d2Vn dVn db (dal T) dalT ddl de b (a T) d e (da T) i)).
Proof.
  intros n T P Vf a da d2a d3a b d e db ddl de dal dalT dVn d2Vn lnphis i phase Z zs HT HP Hi HD Hp HV Hsm Dal L Hne V o h s lnphis_at.
  pose proof Rgas_pos as HR. pose proof Hp as [Hb Hs]. pose proof (Kf_Q_pos d e (Vf T) HD Hs) as HQ.
  assert (Hr : regular_V b d e (Vf T)) by (split; apply Rgt_not_eq; lra).
  pose proof Hsm as (Sa & Sda & _). pose proof (locally_singleton _ _ Sa) as Ha. pose proof (locally_singleton _ _ Sda) as Hda. cbv beta in Ha, Hda.
  destruct (C04_V_of_T a da d2a b d e T P Vf Sa Hda Hr L Hne) as (DV & _). fold V in DV. fold o in DV.
  destruct (C03_H_isobar a da d2a d3a b d e T P Vf HD Hsm Hr L Hne) as (DHl & DHg & _). fold V in DHl, DHg. fold o in DHl, DHg.
  destruct (C03_S_isobar a da d2a d3a b d e T P Vf HD Hsm Hr HT HP HV Hb L Hne) as (DSl & DSg & _). fold V in DSl, DSg. fold o in DSl, DSg.
  assert (EP : P_cubic a b d e T (Vf T) = P) by (apply (locally_singleton _ _ L)).
  assert (E1 : dV_dT o = - (Rgas / (V - b) - da T / (V ^ 2 + d * V + e)) * (1 / (- Rgas * T / (V - b) ^ 2 + a T * (2 * V + d) / (V ^ 2 + d * V + e) ^ 2))) by (apply dV_dT_val; auto).
  assert (HPV : - Rgas * T / (V - b) ^ 2 + a T * (2 * V + d) / (V ^ 2 + d * V + e) ^ 2 <> 0).
  { intros E. apply Hne. apply is_derive_unique. unfold P_cubic. auto_derive; [splits; auto; apply Rgt_not_eq; lra|]. rewrite <- E. unfold V. field. split; apply Rgt_not_eq; lra. }
  assert (G : forall dS dH : R, is_derive (fun t => S_dep a da d2a b d e t P (Vf t)) T dS -> is_derive (fun t => H_dep a da d2a b d e t P (Vf t)) T dH ->
    is_derive lnphis_at T (GCEOSMIX_dlnphis_dT phase T P zs n V Z (dV_dT o) dS s dH h d2Vn dVn db (dal T) dalT ddl de b (a T) d e (da T) i)).
  { intros dS dH DS DH. set (ai := fun t : R => dal t i). change (is_derive ai T (dalT i)) in Dal.
    pose proof (comp_T P Vf a ai b d e (db i) (ddl i) (de i) T (dV_dT o) (da T) (dalT i) HT HD Hp DV Ha Dal) as DC. cbv zeta in DC.
    set (hf := fun p : R => H_dep a da d2a b d e p P (Vf p)). change (is_derive hf T dH) in DH. set (sf := fun p : R => S_dep a da d2a b d e p P (Vf p)). change (is_derive sf T dS) in DS.
    set (c := fun p : R => dlnf p P (Vf p) b d e (a p) 0 (db i) (ddl i) (de i) (ai p)). match type of DC with is_derive _ _ ?v => set (cv := v); change (is_derive c T cv) in DC end.
    apply (is_derive_ext_loc (fun p => (hf p - p * sf p) / (Rgas * p) + c p)).
    { assert (L1 : locally T (fun p => 0 < p)) by (apply (pos_loc (fun p => p)); [auto_derive; auto|auto]).
      assert (L2 := poles_loc b d e Vf T (ex_intro _ _ DV) Hp).
      generalize (filter_and _ _ L (filter_and _ _ L1 L2)). apply filter_imp. intros p ((_ & Q1) & Q2 & Q3). unfold lnphis_at.
      rewrite general_value by auto. f_equal. symmetry. destruct (C02_lnphi b d e p P (Vf p) (a p) (da p) (d2a p) Q2 HP HD Q3) as [X _]. exact X. }
    change s with (sf T). change h with (hf T). change (dal T i) with (ai T).
    clearbody hf sf c.
    apply is_derive_eq with ((- T * dS - sf T + dH) / (Rgas * T) - (- T * sf T + hf T) / (Rgas * T * T) + cv).
    { assert (NR : Rgas * T <> 0) by nz. auto_derive; [splits; try (eexists; eassumption); auto|]. dv DH. dv DS. dv DC. cR. field. lra. }
    unfold cv. unfold GCEOSMIX_dlnphis_dT. cbv zeta. lp Hi. cR.
    fold V. change (dal T i) with (ai T). set (K := Kf d e V). set (Q := V ^ 2 + d * V + e) in *. fold V in HQ. fold Q in HQ. set (D := d * d - 4 * e) in *.
    rewrite (Reqb_false D 0) by lra. cbv iota.
    assert (SP : 0 < sqrt D) by (apply sqrt_lt_R0; auto). assert (SS : sqrt D * sqrt D = D) by (apply sqrt_sqrt; lra).
    assert (EK : re_catanh (1 / sqrt D * (d + 2 * V)) = K * sqrt D / 2).
    { unfold K, Kf. fold D. replace (1 / sqrt D * (2 * V + d)) with (1 / sqrt D * (d + 2 * V)) by ring. field. lra. }
    rewrite EK.
    assert (ER : Rpower D (3 / 2) = D * sqrt D).
    { replace (3 / 2) with (1 + / 2) by lra. rewrite Rpower_plus, Rpower_1, Rpower_sqrt by auto. reflexivity. }
    rewrite ER.
    assert (EQ : (d + 2 * V) ^ 2 = 4 * Q + D) by (unfold Q, D; ring).
    replace ((d + 2 * V) ^ 2 * (1 / D) - 1) with (4 * Q / D) by (rewrite EQ; field; lra).
    assert (EPP : P = Rgas * T / (V - b) - a T / Q) by (symmetry; exact EP).
    set (VT := dV_dT o) in *.
    assert (C1 : - P / T - a T / (T * Q) + da T / Q + VT * (Rgas * T / (V - b) ^ 2 - a T * (2 * V + d) / Q ^ 2) = 0).
    { set (PV := - Rgas * T / (V - b) ^ 2 + a T * (2 * V + d) / Q ^ 2) in *. replace (Rgas * T / (V - b) ^ 2 - a T * (2 * V + d) / Q ^ 2) with (- PV) by (unfold PV; field; splits; unfold V; lra).
      rewrite E1, EPP. clearbody PV. field. splits; auto; unfold V; lra. }
    assert (C4 : P / (Rgas * T) - 1 / (V - b) + a T / (Rgas * T * Q) = 0) by (rewrite EPP; field; splits; unfold V; lra).
    match goal with |- ?x = ?y => transitivity (x + (dVn i) / (Rgas * T) * (- P / T - a T / (T * Q) + da T / Q + VT * (Rgas * T / (V - b) ^ 2 - a T * (2 * V + d) / Q ^ 2)) + (d2Vn i) * (P / (Rgas * T) - 1 / (V - b) + a T / (Rgas * T * Q))); [rewrite C1, C4; ring|] end.
    assert (HVb : V - b <> 0) by (unfold V; lra). assert (HV0 : V <> 0) by (unfold V; lra).
    set (r := sqrt D) in *. clearbody r VT Q V K ai. clear C1 C4 EPP EP ER EK E1 HPV. clearbody D. field. splits; try lra; auto. }
  split.
  - apply G; assumption.
  - intros HVm. apply G; [apply (DSg HVm)|apply (DHg HVm)].
Qed.

(* The equation with b = 1, delta = -1, epsilon = 0, a_alpha = R T, whose volume is R T / P, meets the hypotheses of C71_general_T and C71_general_P at T = 1, P = R / 3. *)
Example C71_general_hypotheses_met :
  let a := fun t => Rgas * t in let da := fun _ : R => Rgas in let P := Rgas / 3 in
  let VT := fun t => Rgas * t / P in let VP := fun p => Rgas * 1 / p in
  VT 1 = 3 /\ VP P = 3 /\ 0 < -1 * -1 - 4 * 0 /\ above_poles 1 (-1) 0 3 /\ smooth3 a da (fun _ => 0) (fun _ => 0) 1 /\ 3 <= 10 ^ 50 /\
  locally 1 (fun t => ex_derive VT t /\ P_cubic a 1 (-1) 0 t (VT t) = P) /\
  locally P (fun p => ex_derive VP p /\ P_cubic a 1 (-1) 0 1 (VP p) = p) /\
  Derive (fun v => P_cubic a 1 (-1) 0 1 v) 3 <> 0.
Proof.
  intros a da P VT VP. pose proof Rgas_pos as HR. destruct C04_hypotheses_met as (E1 & _ & _ & _ & _ & L1 & L2 & _ & _ & N & _).
  pose proof C03_hypotheses_met as (_ & S & _ & _ & B).
  splits.
  - exact E1.
  - unfold VP, P. field. lra.
  - lra.
  - split; [lra|]. replace (-1 * -1 - 4 * 0) with 1 by ring. rewrite sqrt_1. lra.
  - exact S.
  - destruct B as [_ B]. exact B.
  - exact L1.
  - exact (locally_singleton _ _ L2).
  - exact N.
Qed.

(* A binary mixture of the Peng-Robinson form with unequal covolumes, the one of C17, whose volume 2 b depends on composition, meets
   the hypotheses of C71_amounts. *)
Example C71_amounts_hypotheses_met : exists T P zs bs M Vf db dd de da da1 da2,
  let bf := fun z => lin_mix 2 z bs in let df := fun z => 2 * lin_mix 2 z bs in
  let ef := fun z => - (lin_mix 2 z bs) ^ 2 in let af := fun z => quad_mix 2 z M in
  let a1f := fun z => - lin_mix 2 z bs in let a2f := fun z => lin_mix 2 z bs in
  let i := 0%nat in let n := 2%nat in
  let b := bf zs in let d := df zs in let e := ef zs in let a := af zs in let V := Vf zs in
  0 < T /\ 0 < P /\ rsum n zs = 1 /\ bs 0%nat <> bs 1%nat /\
  partial (fun ns => bf (fractions n ns)) zs i (db i) /\ partial (fun ns => df (fractions n ns)) zs i (dd i) /\
  partial (fun ns => ef (fractions n ns)) zs i (de i) /\ partial (fun ns => af (fractions n ns)) zs i (da i) /\
  partial (fun ns => a1f (fractions n ns)) zs i (da1 i) /\ partial (fun ns => a2f (fractions n ns)) zs i (da2 i) /\
  0 < d * d - 4 * e /\ above_poles b d e V /\ volume_root n T P bf df ef af Vf zs i /\
  Derive (fun v => P_cubic (fun _ => a) b d e T v) V <> 0 /\
  volumetric (derivatives_and_departures T P V b d e a (a1f zs) (a2f zs)) 0 <> 0.
Proof.
  set (zs := fun _ : nat => / 2). set (bs := fun i : nat => match i with O => 1 | _ => 2 end).
  set (M := fun i j : nat => 7 * (3 * (bs i + bs j) / 2 - bs i * bs j)).
  set (Vf := fun ns : nat -> R => 2 * lin_mix 2 (fractions 2 ns) bs).
  pose proof Rgas_pos as HR. 
  assert (Hz : rsum 2 zs = 1) by (unfold zs; simpl; lra).
  assert (EV : Vf zs = 3) by (unfold Vf; rewrite fractions_one by auto; unfold lin_mix, zs, bs; simpl; lra).
  assert (Eb : lin_mix 2 zs bs = 3 / 2) by (unfold lin_mix, zs, bs; simpl; lra).
  assert (Ea : quad_mix 2 zs M = 63 / 4) by (unfold quad_mix, M, zs, bs; simpl; lra).
  assert (Di : forall f : R -> R, ex_derive f (/ 2) -> is_derive f (/ 2) (Derive f (/ 2))) by (intros f E; apply Derive_correct; exact E).
  exists (3 / Rgas), 1, zs, bs, M, Vf.
  pose (bf := fun z => lin_mix 2 z bs). pose (af := fun z => quad_mix 2 z M).
  exists (fun i => Derive (fun s => bf (fractions 2 (upd zs i s))) (zs i)).
  exists (fun i => Derive (fun s => 2 * bf (fractions 2 (upd zs i s))) (zs i)).
  exists (fun i => Derive (fun s => - (bf (fractions 2 (upd zs i s))) ^ 2) (zs i)).
  exists (fun i => Derive (fun s => af (fractions 2 (upd zs i s))) (zs i)).
  exists (fun i => Derive (fun s => - bf (fractions 2 (upd zs i s))) (zs i)).
  exists (fun i => Derive (fun s => bf (fractions 2 (upd zs i s))) (zs i)).
  cbv beta zeta. rewrite Eb, EV, Ea. splits; auto; try lra.
  - apply Rdiv_lt_0_compat; lra.
  - unfold bs; lra.
  - apply Di. unfold bf, lin_mix, fractions, upd, zs. simpl. auto_derive. lra.
  - apply Di. unfold bf, lin_mix, fractions, upd, zs. simpl. auto_derive. lra.
  - apply Di. unfold bf, lin_mix, fractions, upd, zs. simpl. auto_derive. lra.
  - apply Di. unfold af, quad_mix, fractions, upd, zs. simpl. auto_derive. splits; lra.
  - apply Di. unfold bf, lin_mix, fractions, upd, zs. simpl. auto_derive. lra.
  - apply Di. unfold bf, lin_mix, fractions, upd, zs. simpl. auto_derive. lra.
  - split; [lra|]. apply Rsqr_incrst_0; try lra; [|apply sqrt_pos]. rewrite Rsqr_sqrt by lra. unfold Rsqr. lra.
  - split.
    + exists (2 * (bs 0%nat - lin_mix 2 zs bs)). apply (partial_scal 2 (fun ns => lin_mix 2 (fractions 2 ns) bs) zs 0). apply d_lin; auto.
    + exists (mkposreal (/ 4) ltac:(lra)). intros t Ht. cbv zeta.
      apply Rabs_def2 in Ht. unfold minus, plus, opp in Ht. simpl in Ht. unfold zs in Ht.
      unfold P_cubic, Vf, quad_mix, lin_mix, M, bs, fractions. simpl. unfold upd, zs. simpl. field. splits; try lra. nra.
  - match goal with |- Derive ?f ?x <> 0 => assert (E : is_derive f x (- 3 / (3 / 2) ^ 2 + 63 / 4 * 9 / (63 / 4) ^ 2)) end.
    { unfold P_cubic. auto_derive; [splits; lra|]. field. lra. }
    rewrite (is_derive_unique _ _ _ E). lra.
  - unfold volumetric, derivatives_and_departures, main_derivatives_and_departures. cbv zeta. cbn [List.nth]. apply Rgt_not_eq.
    match goal with |- ?x > 0 => replace x with (Rgas * (2 / 3) + 2 / 21) by (field; lra) end. lra.
Qed.

(* Temperature and pressure, covolume and compressibility factors that depend on the condition, for the three classes with formulas of their own *)
Example C71_classes_hypotheses_met : exists T P b (ZP ZT : R -> R) (a : R -> R) (rows : R -> nat -> R) drows (dZP dZT da : R),
  0 < T /\ 0 < P /\ 0 < b /\ a T <> 0 /\ 0 < a T /\ is_derive ZP P dZP /\ is_derive ZT T dZT /\ is_derive a T da /\
  is_derive (fun t => rows t 1%nat) T (drows 1%nat) /\ ZP P = ZT T /\ b * P / (Rgas * T) < ZP P /\ dZP <> 0 /\ dZT <> 0 /\ da <> 0.
Proof.
  pose proof Rgas_pos as HR.
  exists 300, 100000, (1 / 20000), (fun p => 1 - p / 10000000), (fun t => 1 - 3 / t), (fun t => 500 - t), (fun t i => INR i * (400 - t)), (fun i => - INR i), (- / 10000000), (3 / 300 ^ 2), (-1).
  assert (B : 1 / 20000 * 100000 / (Rgas * 300) < 1 / 100).
  { apply Rmult_lt_reg_r with (Rgas * 300); [lra|]. unfold Rdiv at 1. rewrite Rmult_assoc, Rinv_l by lra. rewrite Rgas_val. lra. }
  splits; try lra.
  - auto_derive; auto. lra.
  - auto_derive; [lra|]. field.
  - eapply is_derive_eq; [auto_derive; auto; reflexivity|ring].
  - change (is_derive (fun t : R => 1 * (400 - t)) 300 (- 1)). auto_derive; auto. ring.
Qed.
