(* C37: the integrals of a property over temperature and over its logarithm. *)
From Coq Require Import Reals Arith List Bool String Lra Lia.
From Coquelicot Require Import Coquelicot.
From Coq Require Import List.
From Verif Require Import Base BaseFacts Model_pyerr Model_tdep Spec_tdep TdepFacts Prop_C36.
Import ListNotations.
Open Scope R_scope.
Ltac fe := apply (f_equal (@Some R)); asR.

Lemma RInt_is (f : R -> R) a b : ex_RInt f a b -> is_RInt f a b (RInt f a b).
Proof. intros. now apply (@RInt_correct R_CompleteNormedModule). Qed.
Lemma chasles (f : R -> R) a b c : ex_RInt f a b -> ex_RInt f b c -> RInt f a b + RInt f b c = RInt f a c.
Proof. intros. now apply (@RInt_Chasles R_CompleteNormedModule f a b c). Qed.
Lemma RInt_agree (f g : R -> R) a b : (forall t, Rmin a b < t < Rmax a b -> f t = g t) -> RInt f a b = RInt g a b.
Proof. intros. now apply (@RInt_ext R_CompleteNormedModule). Qed.
Lemma RInt_by (f df : R -> R) a b x : a <= b -> (forall t, a <= t <= b -> is_derive f t (df t)) -> (forall t, a <= t <= b -> continuous df t) -> f b - f a = x -> is_RInt df a b x.
Proof. intros H D C <-. apply (is_RInt_derive (V := R_CompleteNormedModule) f df); rewrite Rmin_left, Rmax_right; auto. Qed.
(* The integral that a computation has is unique, additive and antisymmetric *)
Lemma has_integral_unique p a b x y : has_integral p a b x -> has_integral p a b y -> x = y.
Proof.
  intros (g & G & H) (h & K & L). rewrite <- (is_RInt_unique _ _ _ _ H), <- (is_RInt_unique _ _ _ _ L). apply RInt_agree.
  intros t Ht. assert (R : Rmin a b <= t <= Rmax a b) by lra. specialize (G t R). specialize (K t R). congruence.
Qed.

(* The numerical quadrature of the library is taken to be exact *)
Definition exact_quadrature (quad : (R -> option R) -> R -> R -> option R) : Prop := forall p a b x, a <= b -> has_integral p a b x -> quad p a b = Some x.
(* calculate_integral and calculate_integral_over_T of the method are integrals of its function inside the limits *)
Definition integrates (c : R -> R -> option R) (lo hi : R) (f : R -> R) : Prop := forall a b, lo <= a <= b -> b <= hi -> c a b = Some (RInt f a b).

Section Splitting.
Variables (M : method) (lo hi : R) (W : R -> R) (ok : R -> Prop) (base outer : R -> R -> option R).
Hypothesis Hlo : m_lo M = lo.
Hypothesis Hhi : m_hi M = Some hi.
Hypothesis Hlt : lo < hi.
Hypothesis W_cont : forall t, ok t -> continuous W t.
Hypothesis ok_between : forall a b t, ok a -> ok b -> a <= t <= b -> ok t.
Hypothesis ok_inside : forall t, lo <= t <= hi -> ok t.
Hypothesis Hbase : forall a b, lo <= a <= b -> b <= hi -> base a b = Some (RInt W a b).
Hypothesis Hlow : forall a b, a <= b -> b <= lo -> ok a -> ok b -> outer a b = Some (RInt W a b).
Hypothesis Hhigh : forall a b, a <= b -> hi <= a -> ok a -> ok b -> outer a b = Some (RInt W a b).
Lemma W_int a b : ok a -> ok b -> ex_RInt W a b.
Proof.
  intros A B. apply (ex_RInt_continuous (V := R_CompleteNormedModule)). intros t Ht. apply W_cont.
  destruct (Rle_or_lt a b); [rewrite Rmin_left, Rmax_right in Ht by lra; now apply (ok_between a b)|rewrite Rmin_right, Rmax_left in Ht by lra; now apply (ok_between b a)].
Qed.
Lemma integral_up_eq T1 T2 : T1 <= T2 -> ok T1 -> ok T2 -> integral_up true M base outer T1 T2 = Some (RInt W T1 T2).
Proof.
  intros H A B. unfold integral_up. rewrite Hlo, Hhi. cbn [le_hi].
  assert (OL : ok lo) by (apply ok_inside; lra). assert (OH : ok hi) by (apply ok_inside; lra).
  destruct (Rltb_spec T1 lo) as [L|L].
  - destruct (Rle_or_lt lo T2) as [K|K].
    + rewrite (Rleb_true lo T2), Hlow by (auto; lra). cbv zeta iota.
      destruct (Rle_or_lt T2 hi) as [J|J].
      * rewrite (Rleb_true T2 hi) by lra. rewrite Hbase by lra. fe. apply chasles; now apply W_int.
      * rewrite (Rleb_false T2 hi), (Rleb_true lo hi), Hhigh by (auto; lra). rewrite Hbase by lra. fe.
        rewrite <- (chasles W T1 lo T2) by now apply W_int. rewrite <- (chasles W lo hi T2) by now apply W_int. ring.
    + rewrite (Rleb_false lo T2), Hlow by (auto; lra). reflexivity.
  - destruct (Rle_or_lt T2 hi) as [J|J].
    + rewrite (Rleb_true T2 hi) by lra. rewrite Hbase by lra. fe. ring.
    + rewrite (Rleb_false T2 hi) by lra. destruct (Rle_or_lt T1 hi) as [I|I].
      * rewrite (Rleb_true T1 hi), Hhigh by (auto; lra). rewrite Hbase by lra. fe. rewrite <- (chasles W T1 hi T2) by now apply W_int. ring.
      * rewrite (Rleb_false T1 hi), Hhigh by (auto; lra). reflexivity.
Qed.
Lemma integral_of_eq T1 T2 : ok T1 -> ok T2 -> integral_of true M base outer T1 T2 = Some (RInt W T1 T2).
Proof.
  intros A B. unfold integral_of. destruct (Rltb_spec T2 T1).
  - rewrite integral_up_eq by (auto; lra). fe. apply (opp_RInt_swap (V := R_CompleteNormedModule)). now apply W_int.
  - apply integral_up_eq; auto; lra.
Qed.
End Splitting.

Section C37.
Variables (O : options) (M : method) (pmin pmax lo hi : R) (F F1 F2 : R -> R) (quad : (R -> option R) -> R -> R -> option R) (plain : bool).
Hypothesis HR : on_range M pmin pmax lo hi F.
Hypothesis HS : smooth_range M lo hi F F1 F2.
Hypothesis HL : usable O M F lo hi (e_low O) true.
Hypothesis HH : usable O M F lo hi (e_high O) false.
Hypothesis NC : e_min O = None /\ e_max O = None.
Hypothesis HQ : exact_quadrature quad.
Hypothesis HI : integrates (cint M) lo hi F.
Hypothesis HIT : integrates (cintT M) lo hi (fun T => F T / T).
Notation P := (T_dependent_property pmin pmax true O M).
Notation E low := (ext_fun O lo hi F F1 F2 (kind O low) low).
Notation W := (whole lo hi (E true) F (E false)).
Notation ok := (within O lo hi).
Notation I := (T_dependent_property_integral quad plain true O M).
Notation IT := (T_dependent_property_integral_over_T quad plain true O M).

Lemma F_cont T : lo <= T <= hi -> continuous F T.
Proof. intros. apply (ex_derive_continuous F). eexists. now apply (s_1 _ _ _ _ _ _ HS). Qed.
Lemma PW t : ok t -> P t = Some (W t).
Proof. intros Ht. rewrite (P_whole O M pmin pmax lo hi F F1 F2) by auto. fe. unfold whole. now rewrite !outer_nc. Qed.
Lemma W_cont t : ok t -> continuous W t.
Proof.
  intros Ht. apply (whole_continuous M pmin pmax lo hi F HR).
  - now apply (ext_fun_value O M pmin pmax lo hi F F1 F2 HR (kind O true) true).
  - now apply (ext_fun_value O M pmin pmax lo hi F F1 F2 HR (kind O false) false).
  - intros. apply (ext_fun_continuous O M pmin pmax lo hi F F1 F2 HR); auto. now apply Ht.
  - apply F_cont.
  - intros. apply (ext_fun_continuous O M pmin pmax lo hi F F1 F2 HR); auto. now apply Ht.
Qed.
Lemma ok_pos t : ok t -> 0 < t.
Proof. now intros []. Qed.
Lemma lo_ok t : 0 < t <= lo -> allowed O (e_low O) t.
Proof. intros H. split; [lra|]. intros U. destruct HR. destruct (e_low O); cbn in U; try tauto; cbn in HL; lra. Qed.
Lemma ok_between a b t : ok a -> ok b -> a <= t <= b -> ok t.
Proof.
  intros (A & _ & _) (B & _ & C) H. split; [lra|]. split; intros K.
  - apply lo_ok; lra.
  - split; [lra|]. intros U. destruct (C ltac:(lra)) as [_ C']. specialize (C' U). lra.
Qed.
Lemma ok_inside t : lo <= t <= hi -> ok t.
Proof.
  intros H. destruct HR. split; [lra|]. split; intros K; [apply lo_ok; lra|]. split; [lra|]. intros U. destruct (e_high O); cbn in U; try tauto; cbn in HH; lra.
Qed.
Lemma ok_low t : ok t -> t <= lo -> allowed O (e_low O) t.
Proof. intros Ht. apply Ht. Qed.
Lemma ok_high t : ok t -> hi <= t -> allowed O (e_high O) t.
Proof. intros Ht. apply Ht. Qed.
Lemma E_cont (low : bool) t : ok t -> (if low then t <= lo else hi <= t) -> continuous (E low) t.
Proof. intros. apply (ext_fun_continuous O M pmin pmax lo hi F F1 F2 HR); destruct low; auto; [now apply ok_low|now apply ok_high]. Qed.
Lemma ext_E ir (low : bool) t : ok t -> (if low then t <= lo else hi <= t) -> extrapolate O M ir t = Some (E low t).
Proof.
  intros Ht Hl. destruct low; [rewrite (ext_low O M pmin pmax lo hi F F1 F2) by (auto; now apply ok_low)|rewrite (ext_high O M pmin pmax lo hi F F1 F2) by (auto; now apply ok_high)]; fe; now rewrite outer_nc.
Qed.
Lemma int_side_eq (low : bool) a b : a <= b -> 0 < a -> (if low then b <= lo else hi <= a) -> int_side M a b = Some low.
Proof.
  intros H A L. destruct HR. unfold int_side, ge_hi. rewrite r_lo, r_hi, (Rltb_false a 0) by lra. destruct low; [now rewrite (Rleb_true b lo)|]. now rewrite (Rleb_false b lo), (Rleb_true hi a) by lra.
Qed.
Lemma kind_usable low : usable O M F lo hi (kind O low) low.
Proof. now destruct low. Qed.
(* on the side of an extrapolation the two formulas are integrals *)
Lemma outer_integral (low : bool) a b : a <= b -> ok a -> ok b -> (if low then b <= lo else hi <= a) -> extrapolate_integral quad plain O M a b = Some (RInt (E low) a b).
Proof.
  intros H A B L. unfold extrapolate_integral. rewrite (int_side_eq low) by (auto; now apply ok_pos). cbv zeta.
  assert (Q : quad (extrapolate O M IR_error) a b = Some (RInt (E low) a b)).
  { apply HQ; auto. exists (E low). rewrite Rmin_left, Rmax_right by lra. split.
    - intros t Ht. apply ext_E; [now apply (ok_between a b)|destruct low; lra].
    - apply RInt_is, (ex_RInt_continuous (V := R_CompleteNormedModule)). rewrite Rmin_left, Rmax_right by lra. intros t Ht. apply E_cont; [now apply (ok_between a b)|destruct low; lra]. }
  change (if low then e_low O else e_high O) with (kind O low). rewrite (get_coeffs_eq O M pmin pmax lo hi F F1 F2 HR HS _ low (kind_usable low)).
  destruct (kind O low) eqn:K; try exact Q.
  - destruct plain; [|exact Q]. cbn [coeffs]. rewrite (limit_T_eq M pmin pmax lo hi F HR low). fe. symmetry. apply is_RInt_unique.
    unfold ext_fun. cbn [coeffs]. set (c := if low then lo else hi). set (v := F c). set (d := F1 c).
    apply (RInt_by (fun t => (v - c * d) * t + / 2 * d * (t * t))); [auto|intros t Ht; auto_derive; [try lra; auto|field; try lra]| |ring]. intros t Ht. apply (ex_derive_continuous (fun t => v + d * (t - c))). auto_derive. auto.
  - cbn [coeffs]. fe. unfold ext_fun. cbn [coeffs]. symmetry. rewrite (RInt_const (V := R_CompleteNormedModule)). unfold scal; cbn. unfold mult; cbn. ring.
Qed.
Lemma outer_integral_T (low : bool) a b : a <= b -> ok a -> ok b -> (if low then b <= lo else hi <= a) -> extrapolate_integral_over_T quad plain O M a b = Some (RInt (fun t => E low t / t) a b).
Proof.
  intros H A B L. pose proof (ok_pos a A) as PA. unfold extrapolate_integral_over_T. rewrite (int_side_eq low) by auto. cbv zeta.
  assert (Q : quad (fun T => match extrapolate O M IR_error T with Some v => Some (v / T) | None => None end) a b = Some (RInt (fun t => E low t / t) a b)).
  { apply HQ; auto. exists (fun t => E low t / t). rewrite Rmin_left, Rmax_right by lra. split.
    - intros t Ht. rewrite (ext_E _ low); [reflexivity|now apply (ok_between a b)|destruct low; lra].
    - apply RInt_is, (ex_RInt_continuous (V := R_CompleteNormedModule)). rewrite Rmin_left, Rmax_right by lra. intros t Ht.
      apply (continuous_mult (fun t => E low t) (fun t => / t)); [apply E_cont; [now apply (ok_between a b)|destruct low; lra]|]. apply (ex_derive_continuous (fun t => / t)). auto_derive. lra. }
  change (if low then e_low O else e_high O) with (kind O low). rewrite (get_coeffs_eq O M pmin pmax lo hi F F1 F2 HR HS _ low (kind_usable low)).
  assert (LN : ln (b / a) = ln b - ln a) by (apply ln_div; lra).
  destruct (kind O low) eqn:K; try exact Q.
  - destruct plain; [|exact Q]. cbn [coeffs]. rewrite (limit_T_eq M pmin pmax lo hi F HR low). fe. symmetry. apply is_RInt_unique.
    unfold ext_fun. cbn [coeffs]. set (c := if low then lo else hi). set (v := F c). set (d := F1 c). rewrite LN.
    apply (RInt_by (fun t => d * t + (v - c * d) * ln t)); [auto|intros t Ht; auto_derive; [try lra; auto|field; try lra]| |ring]. intros t Ht. apply (ex_derive_continuous (fun t => (v + d * (t - c)) / t)). auto_derive. lra.
  - cbn [coeffs]. fe. unfold ext_fun. cbn [coeffs]. set (v := F _). symmetry. rewrite LN. apply is_RInt_unique.
    apply (RInt_by (fun t => v * ln t)); [auto|intros t Ht; auto_derive; [try lra; auto|field; try lra]| |ring]. intros t Ht. apply (ex_derive_continuous (fun t => v / t)). auto_derive. lra.
Qed.
Lemma W_low t : t < lo -> W t = E true t.
Proof. intros. unfold whole. now rewrite Rltb_true. Qed.
Lemma W_high t : hi < t -> W t = E false t.
Proof. intros. destruct HR. unfold whole. now rewrite (Rltb_false t lo), (Rltb_true hi t) by lra. Qed.
Lemma W_in t : lo <= t <= hi -> W t = F t.
Proof. intros. unfold whole. now rewrite !Rltb_false by lra. Qed.
Lemma I_eq T1 T2 : ok T1 -> ok T2 -> I T1 T2 = Some (RInt W T1 T2).
Proof.
  intros A B. destruct HR. unfold T_dependent_property_integral. apply (integral_of_eq M lo hi W ok); auto; try apply W_cont; try apply ok_between; try apply ok_inside.
  - intros a b H K. rewrite HI by lra. fe. apply RInt_agree. rewrite Rmin_left, Rmax_right by lra. intros t Ht. symmetry. apply W_in. lra.
  - intros a b H K Ha Hb. rewrite (outer_integral true) by auto. fe. apply RInt_agree. rewrite Rmin_left, Rmax_right by lra. intros t Ht. symmetry. apply W_low. lra.
  - intros a b H K Ha Hb. rewrite (outer_integral false) by auto. fe. apply RInt_agree. rewrite Rmin_left, Rmax_right by lra. intros t Ht. symmetry. apply W_high. lra.
Qed.
Lemma WT_cont t : ok t -> continuous (fun t => W t / t) t.
Proof. intros H. apply (continuous_mult W (fun t => / t)); [now apply W_cont|]. apply (ex_derive_continuous (fun t => / t)). auto_derive. apply ok_pos in H. lra. Qed.
Lemma IT_eq T1 T2 : ok T1 -> ok T2 -> IT T1 T2 = Some (RInt (fun t => W t / t) T1 T2).
Proof.
  intros A B. destruct HR. unfold T_dependent_property_integral_over_T. apply (integral_of_eq M lo hi (fun t => W t / t) ok); auto; try apply WT_cont; try apply ok_between; try apply ok_inside.
  - intros a b H K. rewrite HIT by lra. fe. apply RInt_agree. rewrite Rmin_left, Rmax_right by lra. intros t Ht. rewrite W_in by lra. reflexivity.
  - intros a b H K Ha Hb. rewrite (outer_integral_T true) by auto. fe. apply RInt_agree. rewrite Rmin_left, Rmax_right by lra. intros t Ht. rewrite W_low by lra. reflexivity.
  - intros a b H K Ha Hb. rewrite (outer_integral_T false) by auto. fe. apply RInt_agree. rewrite Rmin_left, Rmax_right by lra. intros t Ht. rewrite W_high by lra. reflexivity.
Qed.
Lemma between_minmax a b t : ok a -> ok b -> Rmin a b <= t <= Rmax a b -> ok t.
Proof.
  intros A B H. destruct (Rle_or_lt a b); [rewrite Rmin_left, Rmax_right in H by lra; now apply (ok_between a b)|rewrite Rmin_right, Rmax_left in H by lra; now apply (ok_between b a)].
Qed.
Lemma W_ex a b : ok a -> ok b -> ex_RInt W a b.
Proof. intros A B. apply (ex_RInt_continuous (V := R_CompleteNormedModule)). intros. apply W_cont. now apply (between_minmax a b). Qed.
Lemma WT_ex a b : ok a -> ok b -> ex_RInt (fun t => W t / t) a b.
Proof. intros A B. apply (ex_RInt_continuous (V := R_CompleteNormedModule)). intros. apply WT_cont. now apply (between_minmax a b). Qed.

(* The integral reported between any two temperatures is the integral of the property reported, extrapolated parts included *)
Theorem C37_integral T1 T2 : ok T1 -> ok T2 -> exists x, I T1 T2 = Some x /\ has_integral P T1 T2 x.
Proof.
  intros A B. eexists. split; [now apply I_eq|]. exists W. split; [|apply RInt_is; now apply W_ex]. intros t Ht. apply PW. now apply (between_minmax T1 T2).
Qed.
Theorem C37_integral_over_T T1 T2 : ok T1 -> ok T2 -> exists x, IT T1 T2 = Some x /\ has_integral (fun T => match P T with Some v => Some (v / T) | None => None end) T1 T2 x.
Proof.
  intros A B. eexists. split; [now apply IT_eq|]. exists (fun t => W t / t). split; [|apply RInt_is; now apply WT_ex]. intros t Ht. rewrite PW by (now apply (between_minmax T1 T2)). reflexivity.
Qed.
(* Hence they are additive over adjacent intervals, in whatever order the three temperatures are, and change sign with the bounds *)
Theorem C37_additive T1 T2 T3 : ok T1 -> ok T2 -> ok T3 -> exists x12 x23, I T1 T2 = Some x12 /\ I T2 T3 = Some x23 /\ I T1 T3 = Some (x12 + x23).
Proof. intros A B C. rewrite !I_eq by auto. eexists. eexists. splits; [reflexivity|reflexivity|]. fe. symmetry. apply chasles; now apply W_ex. Qed.
Theorem C37_additive_over_T T1 T2 T3 : ok T1 -> ok T2 -> ok T3 -> exists x12 x23, IT T1 T2 = Some x12 /\ IT T2 T3 = Some x23 /\ IT T1 T3 = Some (x12 + x23).
Proof. intros A B C. rewrite !IT_eq by auto. eexists. eexists. splits; [reflexivity|reflexivity|]. fe. symmetry. apply chasles; now apply WT_ex. Qed.
Theorem C37_antisymmetric T1 T2 : ok T1 -> ok T2 -> exists x y, I T1 T2 = Some x /\ I T2 T1 = Some (- x) /\ IT T1 T2 = Some y /\ IT T2 T1 = Some (- y).
Proof.
  intros A B. rewrite !I_eq, !IT_eq by auto. eexists. eexists. splits; try reflexivity; fe; symmetry; apply (opp_RInt_swap (V := R_CompleteNormedModule)); [now apply W_ex|now apply WT_ex].
Qed.
End C37.

(* Without extrapolation there is an integral exactly between the limits *)
Theorem C37_no_extrapolation quad plain O M lo hi T1 T2 : m_lo M = lo -> m_hi M = Some hi -> T1 <= T2 -> (T1 < lo \/ hi < T2) ->
  T_dependent_property_integral quad plain false O M T1 T2 = None /\ T_dependent_property_integral_over_T quad plain false O M T1 T2 = None.
Proof.
  intros L H K D. unfold T_dependent_property_integral, T_dependent_property_integral_over_T, integral_of, integral_up. rewrite L, H. cbn [le_hi]. rewrite (Rltb_false T2 T1) by lra.
  destruct (Rltb_spec T1 lo); [auto|]. destruct D as [D|D]; [lra|]. rewrite (Rleb_false T2 hi) by lra. auto.
Qed.
(* A piecewise method: the integral is that of the piecewise function, however many pieces there are *)
Definition exact_integral (f : R -> R) (J : R -> R -> R) : Prop := forall a b, a <= b -> ex_RInt f a b /\ J a b = RInt f a b.
(* nor where the property has no value at the limit from which a constant or a line would continue *)
Theorem C37_no_value_at_limit quad plain O M T1 T2 : calc M (m_lo M) = None -> e_low O = CONSTANT \/ e_low O = LINEAR /\ plain = true -> 0 <= T1 -> T1 < m_lo M -> T1 <= T2 ->
  T_dependent_property_integral quad plain true O M T1 T2 = None /\ T_dependent_property_integral_over_T quad plain true O M T1 T2 = None.
Proof.
  intros C K P L H.
  assert (X : forall b, T1 <= b -> b <= m_lo M -> extrapolate_integral quad plain O M T1 b = None /\ extrapolate_integral_over_T quad plain O M T1 b = None).
  { intros b B1 B2. unfold extrapolate_integral, extrapolate_integral_over_T, int_side. rewrite (Rltb_false T1 0) by lra. rewrite (Rleb_true b (m_lo M)) by lra. cbv zeta iota.
    destruct K as [K|[K ->]]; rewrite K; unfold get_coeffs; cbn [bind2]; rewrite C; split; reflexivity. }
  unfold T_dependent_property_integral, T_dependent_property_integral_over_T, integral_of. rewrite (Rltb_false T2 T1) by lra. unfold integral_up. rewrite (Rltb_true T1 (m_lo M)) by lra.
  destruct (Rleb_spec (m_lo M) T2) as [E|E].
  - destruct (X (m_lo M)) as [A B]; [lra|lra|]. rewrite A, B. split; reflexivity.
  - destruct (X T2) as [A B]; [lra|lra|]. rewrite A, B. split; reflexivity.
Qed.
Theorem C37_piecewise (pieces : list ((R -> R) * (R -> R -> R) * R)) (f : R -> R) (J : R -> R -> R) T1 T2 :
  List.Forall (fun q => exact_integral (fst (fst q)) (snd (fst q))) pieces ->
  exact_integral f J ->
  is_RInt (piecewise_calc (map (fun q => (fst (fst q), snd q)) pieces) f) T1 T2 (piecewise_integral (map (fun q => (snd (fst q), snd q)) pieces) J T1 T2).
Proof.
  intros HP HF.
  assert (UP : forall (pieces : list ((R -> R) * (R -> R -> R) * R)) T1 T2 acc, List.Forall (fun q => exact_integral (fst (fst q)) (snd (fst q))) pieces -> T1 <= T2 ->
    exists x, is_RInt (piecewise_calc (map (fun q => (fst (fst q), snd q)) pieces) f) T1 T2 x /\ piecewise_integral_up (map (fun q => (snd (fst q), snd q)) pieces) J acc T1 T2 = acc + x).
  { clear - HF. induction pieces as [|[[g K] Tmax] rest IH]; intros T1 T2 acc HP H; cbn [map fst snd piecewise_calc piecewise_integral_up].
    - destruct (HF T1 T2 H) as [X Y]. exists (RInt f T1 T2). split; [now apply RInt_is|now rewrite Y].
    - inversion HP as [|q r Hq Hr]; subst; cbn [fst snd] in *. destruct (Rle_or_lt T2 Tmax) as [A|A].
      + rewrite (Rleb_true T2 Tmax A). destruct (Hq T1 T2 H) as [X Y]. exists (RInt g T1 T2). split; [|now rewrite Y].
        apply (is_RInt_ext (V := R_NormedModule) g); [|now apply RInt_is]. rewrite Rmin_left, Rmax_right by lra. intros t Ht. now rewrite Rleb_true by lra.
      + rewrite (Rleb_false T2 Tmax A). destruct (Rltb_spec T1 Tmax) as [B|B].
        * destruct (Hq T1 Tmax ltac:(lra)) as [X Y]. destruct (IH Tmax T2 (acc + K T1 Tmax) Hr ltac:(lra)) as (x & X1 & X2). exists (RInt g T1 Tmax + x). split; [|rewrite X2, Y; ring].
          apply (is_RInt_Chasles (V := R_NormedModule) _ T1 Tmax T2).
          -- apply (is_RInt_ext (V := R_NormedModule) g); [|now apply RInt_is]. rewrite Rmin_left, Rmax_right by lra. intros t Ht. now rewrite Rleb_true by lra.
          -- eapply (is_RInt_ext (V := R_NormedModule)); [|exact X1]. rewrite Rmin_left, Rmax_right by lra. intros t Ht. now rewrite Rleb_false by lra.
        * destruct (IH T1 T2 acc Hr H) as (x & X1 & X2). exists x. split; [|auto]. eapply (is_RInt_ext (V := R_NormedModule)); [|exact X1]. rewrite Rmin_left, Rmax_right by lra. intros t Ht. now rewrite Rleb_false by lra. }
  unfold piecewise_integral. destruct (Rltb_spec T2 T1).
  - destruct (UP pieces T2 T1 0 HP ltac:(lra)) as (x & X1 & X2). rewrite X2, Rplus_0_l. apply (is_RInt_swap (V := R_NormedModule) _ T1 T2 x). exact X1.
  - destruct (UP pieces T1 T2 0 HP ltac:(lra)) as (x & X1 & X2). rewrite X2, Rplus_0_l. exact X1.
Qed.

(* a concrete case: F(T) = T between 200 and 300, linear below and constant above *)
Definition exact_quad (p : R -> option R) (a b : R) : option R := Some (RInt (fun t => match p t with Some v => v | None => 0 end) a b).
Lemma exact_quad_exact : exact_quadrature exact_quad.
Proof.
  intros p a b x H (g & G & K). unfold exact_quad. fe. apply is_RInt_unique. apply (is_RInt_ext (V := R_NormedModule) g); [|exact K]. intros t Ht. now rewrite G by lra.
Qed.
Definition line_method : method :=
  {| calc := fun T => Some (1 * T + 0); cder := fun n T => Some (match n with 0%nat => 1 * T + 0 | 1%nat => 1 | _ => 0 end); clogder := fun T => Some (1 / (1 * T + 0));
     cint := fun a b => Some ((b * b - a * a) / 2); cintT := fun a b => Some (b - a); m_lo := 200; m_hi := Some 300 |}.
Example C37_hypotheses_met :
  let O := {| Tc := 500; e_low := LINEAR; e_high := CONSTANT; e_min := None; e_max := None |} in let F := fun T => 1 * T + 0 in
  on_range line_method 0 1000 200 300 F /\ smooth_range line_method 200 300 F (fun _ => 1) (fun _ => 0) /\ usable O line_method F 200 300 LINEAR true /\ usable O line_method F 200 300 CONSTANT false /\
  exact_quadrature exact_quad /\ integrates (cint line_method) 200 300 F /\ integrates (cintT line_method) 200 300 (fun T => F T / T) /\ within O 200 300 100 /\ within O 200 300 1000.
Proof.
  cbv zeta. splits; try exact I.
  - constructor; cbn; auto; intros; lra.
  - constructor; cbn; auto; intros; auto_derive; auto; ring.
  - apply exact_quad_exact.
  - intros a b H K. cbn [cint cintT line_method]. fe. symmetry. apply is_RInt_unique. apply (RInt_by (fun t => t * t / 2)); [lra|intros; auto_derive; auto; field| |field]. intros. apply (ex_derive_continuous (fun T => 1 * T + 0)). auto_derive. auto.
  - intros a b H K. cbn [cint cintT line_method]. fe. symmetry. apply is_RInt_unique. apply (RInt_by (fun t => t)); [lra|intros; auto_derive; auto; field; lra| |field]. intros. apply (ex_derive_continuous (fun T => (1 * T + 0) / T)). auto_derive. lra.
  - unfold within, allowed; cbn. repeat split; intros; try lra; tauto.
  - unfold within, allowed; cbn. repeat split; intros; try lra; tauto.
Qed.
(* The clamps on extrapolated values are not applied by the closed forms of the integral *)
Theorem C37_integral_with_clamp_refuted : exists O M T1 T2 x y, on_range M 0 1000 200 300 (fun T => 1 * T + (-100)) /\ smooth_range M 200 300 (fun T => 1 * T + (-100)) (fun _ => 1) (fun _ => 0) /\ e_low O = LINEAR /\ e_min O = Some 50 /\
  (forall quad, T_dependent_property_integral quad true true O M T1 T2 = Some x) /\ has_integral (T_dependent_property 0 1000 true O M) T1 T2 y /\ x <> y.
Proof.
  exists {| Tc := 500; e_low := LINEAR; e_high := LINEAR; e_min := Some 50; e_max := None |}, (line 1 (-100) 200 300), 100, 150, ((1 * 200 + -100 - 200 * 1) * (150 - 100) + / 2 * 1 * (150 * 150 - 100 * 100)), (scal (150 - 100) 50). splits; try reflexivity.
  - apply line_on_range; intros; lra.
  - apply line_smooth.
  - intros. unfold T_dependent_property_integral, integral_of, integral_up. cbn [m_lo m_hi line]. rewrite (Rltb_false 150 100), (Rltb_true 100 200), (Rleb_false 200 150) by lra.
    unfold extrapolate_integral, int_side. cbn [m_lo m_hi line]. rewrite (Rltb_false 100 0), (Rleb_true 150 200) by lra. reflexivity.
  - exists (fun _ => 50). rewrite Rmin_left, Rmax_right by lra. split; [|apply (is_RInt_const (V := R_NormedModule))]. intros t Ht.
    unfold T_dependent_property, inside. cbn. rewrite (Rleb_false 200 t) by lra. cbn. unfold extrapolate, side; cbn. rewrite (Rltb_false t 0), (Rleb_true t 200) by lra. cbn.
    destruct (Rltb_spec (1 * 200 + -100 + 1 * (t - 200)) 50); fe; lra.
  - unfold scal; cbn. unfold mult; cbn. lra.
Qed.
