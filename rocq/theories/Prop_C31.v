(* C31: the views of one flow (ns, zs, ms, ws, n, m, volumetric flows) are consistent, whichever one was specified. *)
From Coq Require Import Reals List Bool Arith Lra Lia.
From Verif Require Import Base BaseFacts Model_stream Model_flow.
Import ListNotations.
Open Scope R_scope.

(* ---- specification ---- *)
Record view : Type := mkview {
  v_n : R; v_m : R; v_Ql : R; v_Qg : R;
  v_zs : list R; v_ws : list R; v_Vfls : list R; v_ns : list R; v_ms : list R; v_Qls : list R; v_Qgs : list R }.
(* molar masses in g/mol, so a mass flow in kg/s is n*MW/1000; reference liquid volumes Vl and ideal-gas volume Vg *)
Definition consistent (MW Vl : list R) (Vg : R) (v : view) : Prop :=
  length (v_zs v) = length MW /\
  v_ns v = map (fun z => v_n v * z) (v_zs v) /\
  v_ms v = map2 (fun n M => n * M / 1000) (v_ns v) MW /\
  v_ms v = map (fun w => v_m v * w) (v_ws v) /\
  v_Qls v = map2 Rmult (v_ns v) Vl /\
  v_Qls v = map (fun f => v_Ql v * f) (v_Vfls v) /\
  v_Qgs v = map (fun n => n * Vg) (v_ns v) /\
  lsum (v_zs v) = 1 /\ lsum (v_ws v) = 1 /\ lsum (v_Vfls v) = 1 /\
  lsum (v_ns v) = v_n v /\ lsum (v_ms v) = v_m v /\ lsum (v_Qls v) = v_Ql v /\ lsum (v_Qgs v) = v_Qg v.

(* the views an object shows through the public attributes *)
Definition shows (o : obj) (fs : res (option nat)) (v : view) : Prop :=
  zs_calc o = Ok (Some (somes (v_zs v))) /\ ws_calc o = Ok (Some (somes (v_ws v))) /\
  Vfls_calc o = Ok (Some (somes (v_Vfls v))) /\
  ns_calc o fs = Ok (Some (somes (v_ns v))) /\ ms_calc o fs = Ok (Some (v_ms v)) /\
  Qls_calc o fs = Ok (Some (v_Qls v)) /\ Qgs_calc o fs = Ok (Some (v_Qgs v)) /\
  n_calc o fs = Ok (Some (v_n v)) /\ m_calc o fs = Ok (Some (v_m v)) /\
  Ql_calc o fs = Ok (Some (v_Ql v)) /\ Qg_calc o fs = Ok (Some (v_Qg v)).

(* a physically meaningful flasher *)
Definition good (F : flasher) : Prop :=
  Forall (fun x => 0 < x) (MWs F) /\ Forall (fun x => 0 < x) (Vls F) /\ length (Vls F) = length (MWs F) /\
  0 < T_gas_ref F /\ 0 < P_gas_ref F.
Definition Vgas (F : flasher) : R := Rgas * T_gas_ref F / P_gas_ref F.

(* exactly these list specifications / these scalar flows are stored *)
Definition only_list (s : args) (k : lf) (l : list R) : Prop :=
  ls s k = Some (somes l) /\ forall j, j <> k -> ls s j = None.
Definition only_flow (s : args) (k : option (sf * R)) : Prop :=
  forall j, In j [f_n; f_m; f_Q; f_Ql; f_Qg] ->
    sc s j = match k with Some (i, x) => if sf_eq_dec j i then Some x else None | None => None end.

(* ---- lists ---- *)
Lemma complete_somes l : complete (somes l) = true.
Proof. induction l; simpl; auto. Qed.
Lemma vals_somes l : vals (somes l) = l.
Proof. induction l; simpl; f_equal; auto. Qed.
Lemma full_somes l : full (somes l) = Ok l.
Proof. unfold full. now rewrite complete_somes, vals_somes. Qed.

Lemma map2_ext f g a : forall b, (forall x y, In x a -> In y b -> f x y = g x y) -> map2 f a b = map2 g a b.
Proof.
  induction a as [|x a IH]; intros [|y b] H; simpl; auto. f_equal; [apply H; simpl; auto|].
  apply IH. intros; apply H; simpl; auto.
Qed.
Lemma map2_map_l f g a : forall b, map2 f (map g a) b = map2 (fun x y => f (g x) y) a b.
Proof. induction a as [|x a IH]; intros [|y b]; simpl; auto. f_equal; auto. Qed.
Lemma map_map2 f g a : forall b, map g (map2 f a b) = map2 (fun x y => g (f x y)) a b.
Proof. induction a as [|x a IH]; intros [|y b]; simpl; auto. f_equal; auto. Qed.
Lemma map2_map2_l f g a : forall b, map2 f (map2 g a b) b = map2 (fun x y => f (g x y) y) a b.
Proof. induction a as [|x a IH]; intros [|y b]; simpl; auto. f_equal; auto. Qed.
Lemma map2_flip f a : forall b, map2 f a b = map2 (fun x y => f y x) b a.
Proof. induction a as [|x a IH]; intros [|y b]; simpl; auto. f_equal; auto. Qed.
Lemma map2_fst f g a : forall b, length a = length b -> (forall x y, In x a -> In y b -> f x y = g x) -> map2 f a b = map g a.
Proof.
  induction a as [|x a IH]; intros [|y b] L H; simpl in *; try discriminate; auto. f_equal; [apply H; auto|].
  apply IH; [lia | intros; apply H; auto].
Qed.
Lemma map2_length f a : forall b, length a = length b -> length (map2 f a b) = length a.
Proof. induction a as [|x a IH]; intros [|y b] L; simpl in *; try discriminate; auto. Qed.
Lemma lsum_scal c l : lsum (map (fun x => c * x) l) = c * lsum l.
Proof. unfold lsum. induction l; simpl; [lra|]. rewrite IHl. lra. Qed.
Lemma lsum_scal2 c f a : forall b, lsum (map2 (fun x y => c * f x y) a b) = c * lsum (map2 f a b).
Proof. intros b. rewrite <- lsum_scal, map_map2. reflexivity. Qed.
Lemma lsum_pos l : Forall (fun x => 0 <= x) l -> 0 < lsum l -> exists x, In x l /\ 0 < x.
Proof.
  induction 1 as [|x l Hx Hl IH]; simpl; [lra|]. intros H. destruct (Rle_lt_dec x 0).
  - destruct IH as (y & I & P); [lra|]. exists y; auto.
  - exists x; auto.
Qed.
Lemma lsum_nonneg l : Forall (fun x => 0 <= x) l -> 0 <= lsum l.
Proof. induction 1; simpl; lra. Qed.
Lemma map2_nonneg f a : forall b, Forall (fun x => 0 <= x) a -> Forall (fun x => 0 < x) b ->
  (forall x y, 0 <= x -> 0 < y -> 0 <= f x y) -> Forall (fun x => 0 <= x) (map2 f a b).
Proof.
  intros b A. revert b. induction A as [|x a Hx Ha IH]; intros b B H; destruct B; simpl; constructor; auto.
Qed.
Lemma lsum_map2_pos f a : forall b, length a = length b -> Forall (fun x => 0 <= x) a -> Forall (fun x => 0 < x) b ->
  (forall x y, 0 <= x -> 0 < y -> 0 <= f x y) -> (forall x y, 0 < x -> 0 < y -> 0 < f x y) -> 0 < lsum a -> 0 < lsum (map2 f a b).
Proof.
  intros b L A B N P. revert b L B. induction A as [|x a Hx Ha IH]; intros b L B S; destruct B as [|y b Hy Hb]; simpl in *;
    try discriminate; try lra.
  assert (M : 0 <= lsum (map2 f a b)) by (apply lsum_nonneg, map2_nonneg; auto).
  destruct (Rle_lt_dec (lsum a) 0).
  - pose proof (lsum_nonneg a Ha). assert (0 < x) by lra. specialize (P x y). lra.
  - specialize (IH b ltac:(lia) Hb r). specialize (N x y Hx Hy). lra.
Qed.
Lemma anyzero_pos l : Forall (fun x => 0 < x) l -> anyzero l = false.
Proof. induction 1; simpl; auto. unfold anyzero in *. simpl. rewrite Reqb_false by lra. auto. Qed.
Lemma Forall_in {A} (P : A -> Prop) l x : Forall P l -> In x l -> P x.
Proof. intros H. rewrite Forall_forall in H. auto. Qed.
Lemma normalize_ok l : lsum l <> 0 -> normalize l = Some (map (fun x => x / lsum l) l).
Proof. intros H. unfold normalize. now rewrite Reqb_false. Qed.
Lemma map_eq_scal l : forall c d, (forall x, In x l -> c * x = d * x) -> map (fun x => c * x) l = map (fun x => d * x) l.
Proof. intros c d H. apply map_ext_in. auto. Qed.

(* ---- the canonical view of n moles of composition z ---- *)
Section Canon.
Variable F : flasher.
Hypothesis G : good F.
Variables (z : list R) (n : R).
Hypothesis zlen : length z = length (MWs F).
Hypothesis znn : Forall (fun x => 0 <= x) z.
Hypothesis zsum : lsum z = 1.

Definition MWmix := lsum (map2 Rmult z (MWs F)).
Definition Vlmix := lsum (map2 Rmult z (Vls F)).
Definition canon : view := mkview n (n * MWmix / 1000) (n * Vlmix) (n * Vgas F)
  z (map2 (fun x M => x * M / MWmix) z (MWs F)) (map2 (fun x V => x * V / Vlmix) z (Vls F))
  (map (fun x => n * x) z) (map2 (fun x M => n * x * M / 1000) z (MWs F))
  (map2 (fun x V => n * x * V) z (Vls F)) (map (fun x => n * x * Vgas F) z).

Lemma MWmix_pos : 0 < MWmix.
Proof. destruct G as (P & _). apply lsum_map2_pos; auto; intros; try nra; lra. Qed.
Lemma Vlmix_pos : 0 < Vlmix.
Proof. destruct G as (_ & P & L & _). apply lsum_map2_pos; auto; intros; try nra; try lra. lia. Qed.

Lemma canon_consistent : consistent (MWs F) (Vls F) (Vgas F) canon.
Proof.
  pose proof MWmix_pos. pose proof Vlmix_pos. unfold consistent, canon; cbn [v_n v_m v_Ql v_Qg v_zs v_ws v_Vfls v_ns v_ms v_Qls v_Qgs].
  splits; auto.
  - now rewrite map2_map_l.
  - rewrite map_map2. apply map2_ext. intros. field. lra.
  - now rewrite map2_map_l.
  - rewrite map_map2. apply map2_ext. intros. field. lra.
  - rewrite map_map. reflexivity.
  - erewrite (map2_ext _ (fun x M => / MWmix * (x * M))) by (intros; unfold Rdiv; ring). rewrite lsum_scal2.
    fold MWmix. field. lra.
  - erewrite (map2_ext _ (fun x M => / Vlmix * (x * M))) by (intros; unfold Rdiv; ring). rewrite lsum_scal2.
    fold Vlmix. field. lra.
  - rewrite lsum_scal, zsum. ring.
  - erewrite (map2_ext _ (fun x M => (n / 1000) * (x * M))) by (intros; unfold Rdiv; ring). rewrite lsum_scal2.
    fold MWmix. field.
  - erewrite (map2_ext _ (fun x M => n * (x * M))) by (intros; ring). rewrite lsum_scal2. reflexivity.
  - erewrite map_ext by (intros a; instantiate (1 := fun a => (n * Vgas F) * a); cbv beta; ring). rewrite lsum_scal, zsum. ring.
Qed.

(* an object whose zs_calc and ns_calc give z and n*z shows the canonical view, except for what it has stored *)
Variable o : obj.
Variable fs : res (option nat).
Hypothesis FL : fl o = Some F.
Hypothesis Hz : zs_calc o = Ok (Some (somes z)).
Hypothesis Hn : ns_calc o fs = Ok (Some (somes (map (fun x => n * x) z))).
Hypothesis stored_ok :
  (forall x, sc (spec o) f_n = Some x -> x = n) /\ (forall x, sc (spec o) f_m = Some x -> x = v_m canon) /\
  (forall x, sc (spec o) f_Ql = Some x -> x = v_Ql canon) /\ (forall x, sc (spec o) f_Qg = Some x -> x = v_Qg canon) /\
  (forall l, ls (spec o) f_ws = Some l -> l = somes (v_ws canon)) /\
  (forall l, ls (spec o) f_Vfls = Some l -> l = somes (v_Vfls canon)) /\
  (forall l, ls (spec o) f_ns = Some l -> l = somes (v_ns canon)) /\
  (forall l, ls (spec o) f_ms = Some l -> l = somes (v_ms canon)) /\
  (forall l, ls (spec o) f_Qls = Some l -> l = somes (v_Qls canon)) /\
  (forall l, ls (spec o) f_Qgs = Some l -> l = somes (v_Qgs canon)).

Lemma canon_shows : shows o fs canon.
Proof.
  destruct stored_ok as (S1 & S2 & S3 & S4 & L1 & L2 & L3 & L4 & L5 & L6).
  pose proof MWmix_pos as PM. pose proof Vlmix_pos as PV.
  pose proof canon_consistent as (_ & _ & _ & _ & _ & _ & _ & _ & _ & _ & C1 & C2 & C3 & C4).
  assert (PG : P_gas_ref F <> 0) by (destruct G as (_ & _ & _ & _ & P); lra).
  assert (Ems : ms_calc o fs = Ok (Some (v_ms canon))).
  { unfold ms_calc, zs_full. rewrite Hn. cbn [bind]. rewrite full_somes. cbn [bind]. rewrite Hz. cbn [bind]. rewrite full_somes.
    unfold withfl. rewrite FL. cbn [bind]. unfold mixing_simple.
    replace (lsum (map2 Rmult (MWs F) z)) with MWmix
      by (unfold MWmix; f_equal; rewrite map2_flip; apply map2_ext; intros; ring).
    rewrite Reqb_false by lra. do 2 f_equal. rewrite map_map2. unfold canon; cbn [v_ms]. apply map2_ext. intros x M _ _.
    unfold property_mass_to_molar. rewrite lsum_scal, zsum. field. lra. }
  assert (Eql : Qls_calc o fs = Ok (Some (v_Qls canon))).
  { unfold Qls_calc. rewrite Hn. cbn [bind]. rewrite full_somes. cbn [bind]. unfold withfl. rewrite FL. rewrite map2_map_l. reflexivity. }
  assert (Eqg : Qgs_calc o fs = Ok (Some (v_Qgs canon))).
  { unfold Qgs_calc. rewrite Hn. cbn [bind]. rewrite full_somes. cbn [bind]. unfold withfl. rewrite FL, Reqb_false by auto. rewrite map_map. reflexivity. }
  assert (T : forall k l c v tot, (forall x, sc (spec o) k = Some x -> x = tot) -> (forall y, ls (spec o) l = Some y -> y = somes v) ->
    c = Ok (Some v) -> lsum v = tot -> total o k l c = Ok (Some tot)).
  { intros k l c v tot A B -> D. unfold total. destruct (sc (spec o) k) as [x|]; [rewrite (A x); auto|].
    destruct (ls (spec o) l) as [y|]; cbn [bind].
    - rewrite (B y) by auto. rewrite complete_somes, vals_somes, D. reflexivity.
    - rewrite D. reflexivity. }
  unfold shows. splits; auto.
  - unfold ws_calc. destruct (ls (spec o) f_ws) as [l|]; [rewrite (L1 l); auto|]. rewrite Hz. cbn [bind]. rewrite full_somes. cbn [bind].
    unfold withfl. rewrite FL. unfold zs_to_ws. rewrite normalize_ok by (apply Rgt_not_eq; apply PM). cbn [lift bind]. rewrite map_map2. reflexivity.
  - unfold Vfls_calc. destruct (ls (spec o) f_Vfls) as [l|]; [rewrite (L2 l); auto|]. rewrite Hz. cbn [bind]. rewrite full_somes. cbn [bind].
    unfold withfl. rewrite FL. unfold zs_to_Vfs. rewrite normalize_ok by (apply Rgt_not_eq; apply PV). cbn [lift bind]. rewrite map_map2. reflexivity.
  - unfold n_calc. destruct (sc (spec o) f_n) as [x|]; [rewrite (S1 x); auto|]. rewrite Hn. cbn [bind].
    assert (E : lsum (map (fun x => n * x) z) = n) by (rewrite lsum_scal, zsum; ring).
    destruct (ls (spec o) f_ns) as [l|].
    + rewrite (L3 l) by auto. rewrite complete_somes, vals_somes. unfold canon; cbn [v_ns v_n]. rewrite E. reflexivity.
    + rewrite complete_somes, vals_somes, E. reflexivity.
  - eapply T; eauto.
  - eapply T; eauto.
  - eapply T; eauto.
Qed.
End Canon.

(* ---- fractions in another basis ---- *)
Lemma basis a B : length a = length B -> Forall (fun x => 0 <= x) a -> Forall (fun x => 0 < x) B -> lsum a = 1 ->
  let D := lsum (map2 Rdiv a B) in let z := map (fun x => x / D) (map2 Rdiv a B) in
  0 < D /\ length z = length B /\ Forall (fun x => 0 <= x) z /\ lsum z = 1 /\
  lsum (map2 Rmult z B) = / D /\ map2 (fun x b => x * b / lsum (map2 Rmult z B)) z B = a.
Proof.
  intros L A P S D z.
  assert (DP : 0 < D).
  { apply lsum_map2_pos; auto; try lra.
    - intros. apply Rmult_le_pos; auto. left. apply Rinv_0_lt_compat; auto.
    - intros. apply Rmult_lt_0_compat; auto. apply Rinv_0_lt_compat; auto. }
  assert (Z : z = map2 (fun x b => x / b / D) a B) by (unfold z; rewrite map_map2; reflexivity).
  assert (MB : map2 Rmult z B = map (fun x => / D * x) a).
  { rewrite Z, map2_map2_l. apply map2_fst; auto. intros x b _ I. pose proof (Forall_in _ _ _ P I). simpl in *. field. lra. }
  assert (SB : lsum (map2 Rmult z B) = / D) by (rewrite MB, lsum_scal, S; ring).
  splits; auto.
  - unfold z. rewrite map_length, map2_length; auto.
  - rewrite Z. apply map2_nonneg; auto. intros. apply Rmult_le_pos; [apply Rmult_le_pos; auto|]; left; apply Rinv_0_lt_compat; auto.
  - unfold z. erewrite map_ext by (intros x; instantiate (1 := fun x => / D * x); cbv beta; unfold Rdiv; ring).
    rewrite lsum_scal. fold D. field. lra.
  - rewrite SB, Z, map2_map2_l. transitivity (map (fun x => x) a); [|apply map_id]. apply map2_fst; auto.
    intros x b _ I. pose proof (Forall_in _ _ _ P I). simpl in *. field. lra.
Qed.

Lemma norm_facts l : Forall (fun x => 0 <= x) l -> 0 < lsum l ->
  normalize l = Some (map (fun x => x / lsum l) l) /\ Forall (fun x => 0 <= x) (map (fun x => x / lsum l) l) /\
  lsum (map (fun x => x / lsum l) l) = 1 /\ map (fun x => lsum l * x) (map (fun x => x / lsum l) l) = l.
Proof.
  intros A P. splits.
  - apply normalize_ok. lra.
  - rewrite Forall_forall in *. intros y I. apply in_map_iff in I. destruct I as (x & <- & I). specialize (A x I).
    apply Rmult_le_pos; auto. left. apply Rinv_0_lt_compat; auto.
  - erewrite map_ext by (intros x; instantiate (1 := fun x => / lsum l * x); cbv beta; unfold Rdiv; ring).
    rewrite lsum_scal. field. lra.
  - rewrite map_map. transitivity (map (fun x => x) l); [|apply map_id]. apply map_ext. intros x. field. lra.
Qed.

Section Main.
Variable F : flasher.
Hypothesis G : good F.
Variable o : obj.
Variable fs : res (option nat).
Hypothesis FL : fl o = Some F.
Hypothesis ML : multi (spec o) = false.

Ltac others H := repeat match goal with
  | |- context [ls (spec o) ?j] => rewrite (H j) by discriminate
  end.

Lemma frac_zs k l : only_list (spec o) k l -> In k [f_zs; f_ws; f_Vfls; f_Vfgs] ->
  length l = length (MWs F) -> Forall (fun x => 0 <= x) l -> lsum l = 1 ->
  exists z, zs_calc o = Ok (Some (somes z)) /\ length z = length (MWs F) /\ Forall (fun x => 0 <= x) z /\ lsum z = 1 /\
    (k = f_zs -> z = l) /\ (k = f_Vfgs -> z = l) /\
    (k = f_ws -> map2 (fun x M => x * M / MWmix F z) z (MWs F) = l) /\
    (k = f_Vfls -> map2 (fun x V => x * V / Vlmix F z) z (Vls F) = l).
Proof.
  intros [K O] I L N S. destruct G as (PM & PV & LV & _).
  simpl in I. destruct I as [<-|[<-|[<-|[<-|[]]]]].
  - exists l. unfold zs_calc. rewrite K, ML. splits; auto; discriminate.
  - destruct (basis l (MWs F) L N PM S) as (D & B1 & B2 & B3 & B4 & B5).
    eexists. split.
    { unfold zs_calc. rewrite (O f_zs), (O f_ns), K by discriminate. rewrite complete_somes, vals_somes. unfold withfl. rewrite FL.
      unfold ws_to_zs. rewrite anyzero_pos by auto. rewrite normalize_ok by lra. reflexivity. }
    splits; auto; try discriminate. 
  - destruct (basis l (Vls F) ltac:(lia) N PV S) as (D & B1 & B2 & B3 & B4 & B5).
    eexists. split.
    { unfold zs_calc. rewrite (O f_zs), (O f_ns), (O f_ws), K by discriminate. rewrite complete_somes, vals_somes. unfold withfl. rewrite FL.
      unfold Vfs_to_zs. rewrite anyzero_pos by auto. rewrite normalize_ok by lra. reflexivity. }
    splits; auto; try discriminate. lia.
  - exists l. unfold zs_calc. rewrite (O f_zs), (O f_ns), (O f_ws), (O f_Vfls), K by discriminate. rewrite complete_somes.
    splits; auto; discriminate.
Qed.

(* Fractions in any basis with a positive molar, mass, liquid-volume or gas-volume flow: all the calculated attributes
   exist, are mutually consistent, and read back what was specified. *)
Theorem C31_fractions_and_total k l kf x :
  only_list (spec o) k l -> In k [f_zs; f_ws; f_Vfls; f_Vfgs] -> length l = length (MWs F) ->
  Forall (fun x => 0 <= x) l -> lsum l = 1 ->
  only_flow (spec o) (Some (kf, x)) -> In kf [f_n; f_m; f_Ql; f_Qg] ->
  exists v, shows o fs v /\ consistent (MWs F) (Vls F) (Vgas F) v /\
    (k = f_zs -> v_zs v = l) /\ (k = f_ws -> v_ws v = l) /\ (k = f_Vfls -> v_Vfls v = l) /\ (k = f_Vfgs -> v_zs v = l) /\
    (kf = f_n -> v_n v = x) /\ (kf = f_m -> v_m v = x) /\ (kf = f_Ql -> v_Ql v = x) /\ (kf = f_Qg -> v_Qg v = x).
Proof.
  intros KL KI L N S OF FI. destruct (frac_zs k l KL KI L N S) as (z & Hz & Lz & Nz & Sz & Z1 & Z2 & Z3 & Z4).
  pose proof (MWmix_pos F G z Lz Nz Sz) as PM. pose proof (Vlmix_pos F G z Lz Nz Sz) as PV.
  assert (PG : 0 < Vgas F).
  { destruct G as (_ & _ & _ & T & P). unfold Vgas. apply Rmult_lt_0_compat; [apply Rmult_lt_0_compat; auto using Rgas_pos|].
    apply Rinv_0_lt_compat; auto. }
  assert (LN : ls (spec o) f_ns = None /\ ls (spec o) f_ms = None /\ ls (spec o) f_Qls = None /\ ls (spec o) f_Qgs = None).
  { destruct KL as [_ KL]. splits; apply KL; intros <-; simpl in KI; intuition discriminate. }
  destruct LN as (Lns & Lms & Lql & Lqg).
  set (n := match kf with f_n => x | f_m => x * 1000 / MWmix F z | f_Ql => x / Vlmix F z | _ => x / Vgas F end).
  assert (Hn : ns_calc o fs = Ok (Some (somes (map (fun y => n * y) z)))).
  { unfold ns_calc. rewrite Lns, Lms, Lql, Lqg.
    rewrite (OF f_n), (OF f_m), (OF f_Q), (OF f_Ql), (OF f_Qg) by (simpl; tauto).
    simpl in FI. destruct FI as [<-|[<-|[<-|[<-|[]]]]]; cbn [sf_eq_dec sf_rec sf_rect]; simpl sf_eq_dec; cbv iota beta.
    - rewrite Hz. cbn [bind]. rewrite full_somes. reflexivity.
    - rewrite Hz. cbn [bind]. rewrite full_somes. cbn [bind]. unfold withfl. rewrite FL. unfold property_molar_to_mass, mixing_simple.
      replace (lsum (map2 Rmult (MWs F) z)) with (MWmix F z)
        by (unfold MWmix; f_equal; rewrite map2_flip; apply map2_ext; intros; ring).
      rewrite Reqb_false by lra. reflexivity.
    - unfold withfl, zs_full. rewrite FL, Hz. cbn [bind]. rewrite full_somes. cbn [bind]. unfold zs_to_Vfs.
      rewrite normalize_ok by (apply Rgt_not_eq; apply PV). cbn [lift bind]. rewrite anyzero_pos by (destruct G as (_ & ? & _); auto).
      do 3 f_equal. rewrite map2_flip, map_map2, map2_map2_l. apply map2_fst.
      + destruct G as (_ & _ & ? & _). lia.
      + intros y V _ I. fold (Vlmix F z). destruct G as (_ & P & _). pose proof (Forall_in _ _ _ P I). simpl in *. unfold n. field. lra.
    - unfold withfl, zs_full. rewrite FL. rewrite Reqb_false by (destruct G as (_ & _ & _ & _ & ?); lra). fold (Vgas F).
      rewrite Reqb_false by lra. rewrite Hz. cbn [bind]. rewrite full_somes. cbn [bind]. do 3 f_equal. apply map_ext. intros y. unfold n. ring. }
  exists (canon F z n). splits; auto.
  - apply canon_shows; auto.
    rewrite (OF f_n), (OF f_m), (OF f_Ql), (OF f_Qg), Lns, Lms, Lql, Lqg by (simpl; tauto).
    splits; try discriminate.
    1-4: intros y; simpl in FI; destruct FI as [<-|[<-|[<-|[<-|[]]]]]; simpl; intros E; inversion E; subst; unfold n; try field; try reflexivity; lra.
    + intros l' E. destruct (lf_eq_dec k f_ws) as [->|D]; [|destruct KL as [_ KL]; rewrite KL in E by congruence; discriminate].
      unfold canon; cbn [v_ws]. rewrite Z3 by auto. destruct KL as [KL _]. congruence.
    + intros l' E. destruct (lf_eq_dec k f_Vfls) as [->|D]; [|destruct KL as [_ KL]; rewrite KL in E by congruence; discriminate].
      unfold canon; cbn [v_Vfls]. rewrite Z4 by auto. destruct KL as [KL _]. congruence.
  - apply canon_consistent; auto.
  - intros ->. reflexivity.
  - intros ->. unfold n; simpl. field. lra.
  - intros ->. unfold n; simpl. field. lra.
  - intros ->. unfold n; simpl. field. lra.
Qed.

(* Fractions with an actual volumetric flow Q: the molar flow is Q over the molar volume of the flashed state. *)
Theorem C31_fractions_and_Q k l x m :
  only_list (spec o) k l -> In k [f_zs; f_ws; f_Vfls; f_Vfgs] -> length l = length (MWs F) ->
  Forall (fun x => 0 <= x) l -> lsum l = 1 ->
  only_flow (spec o) (Some (f_Q, x)) -> Q_TP o = None -> fs = Ok (Some m) -> 0 < res_V F m ->
  exists v, shows o fs v /\ consistent (MWs F) (Vls F) (Vgas F) v /\ v_n v * res_V F m = x /\
    (k = f_zs -> v_zs v = l) /\ (k = f_ws -> v_ws v = l) /\ (k = f_Vfls -> v_Vfls v = l) /\ (k = f_Vfgs -> v_zs v = l).
Proof.
  intros KL KI L N S OF QT FS VP. destruct (frac_zs k l KL KI L N S) as (z & Hz & Lz & Nz & Sz & Z1 & Z2 & Z3 & Z4).
  assert (LN : ls (spec o) f_ns = None /\ ls (spec o) f_ms = None /\ ls (spec o) f_Qls = None /\ ls (spec o) f_Qgs = None).
  { destruct KL as [_ KL]. splits; apply KL; intros <-; simpl in KI; intuition discriminate. }
  destruct LN as (Lns & Lms & Lql & Lqg).
  assert (Hn : ns_calc o fs = Ok (Some (somes (map (fun y => x / res_V F m * y) z)))).
  { unfold ns_calc. rewrite Lns, Lms, Lql, Lqg.
    rewrite (OF f_n), (OF f_m), (OF f_Q), (OF f_Ql), (OF f_Qg) by (simpl; tauto). simpl sf_eq_dec; cbv iota beta.
    rewrite Hz. cbn [bind]. rewrite full_somes. cbn [bind]. rewrite QT, FS. cbn [bind]. unfold withfl. rewrite FL. cbn [bind].
    rewrite Reqb_false by lra. reflexivity. }
  exists (canon F z (x / res_V F m)). splits; auto.
  - apply canon_shows; auto.
    rewrite (OF f_n), (OF f_m), (OF f_Ql), (OF f_Qg), Lns, Lms, Lql, Lqg by (simpl; tauto).
    splits; try discriminate.
    + intros l' E. destruct (lf_eq_dec k f_ws) as [->|D]; [|destruct KL as [_ KL]; rewrite KL in E by congruence; discriminate].
      unfold canon; cbn [v_ws]. rewrite Z3 by auto. destruct KL as [KL _]. congruence.
    + intros l' E. destruct (lf_eq_dec k f_Vfls) as [->|D]; [|destruct KL as [_ KL]; rewrite KL in E by congruence; discriminate].
      unfold canon; cbn [v_Vfls]. rewrite Z4 by auto. destruct KL as [KL _]. congruence.
  - apply canon_consistent; auto.
  - unfold canon; cbn [v_n]. field. lra.
Qed.

(* A list of component flows in any basis. *)
Theorem C31_component_flows k l :
  only_list (spec o) k l -> In k [f_ns; f_ms; f_Qls; f_Qgs] -> length l = length (MWs F) ->
  Forall (fun x => 0 <= x) l -> 0 < lsum l -> only_flow (spec o) None ->
  exists v, shows o fs v /\ consistent (MWs F) (Vls F) (Vgas F) v /\
    (k = f_ns -> v_ns v = l) /\ (k = f_ms -> v_ms v = l) /\ (k = f_Qls -> v_Qls v = l) /\ (k = f_Qgs -> v_Qgs v = l).
Proof.
  intros [K O] KI L N S OF. destruct (norm_facts l N S) as (E1 & E2 & E3 & E4). set (a := map (fun x => x / lsum l) l) in *.
  assert (La : length a = length (MWs F)) by (unfold a; now rewrite map_length).
  destruct G as (PM & PV & LV & PT & PP).
  assert (PG : 0 < Vgas F).
  { unfold Vgas. apply Rmult_lt_0_compat; [apply Rmult_lt_0_compat; auto using Rgas_pos|]. apply Rinv_0_lt_compat; auto. }
  assert (NF : sc (spec o) f_n = None /\ sc (spec o) f_m = None /\ sc (spec o) f_Q = None /\ sc (spec o) f_Ql = None /\ sc (spec o) f_Qg = None)
    by (splits; rewrite OF by (simpl; tauto); reflexivity).
  destruct NF as (F1 & F2 & F3 & F4 & F5).
  simpl in KI. destruct KI as [<-|[<-|[<-|[<-|[]]]]].
  - exists (canon F a (lsum l)). splits; try discriminate; auto; [|apply canon_consistent; auto].
    apply canon_shows; auto.
    + unfold zs_calc. rewrite (O f_zs), K, ML by discriminate. rewrite full_somes. cbn [bind]. rewrite E1. reflexivity.
    + unfold ns_calc. rewrite K, ML, E4. reflexivity.
    + rewrite F1, F2, F4, F5, (O f_ws), (O f_Vfls), (O f_ms), (O f_Qls), (O f_Qgs), K by discriminate. splits; try discriminate.
      intros l' E. inversion E. unfold canon; cbn [v_ns]. now rewrite E4.
  - destruct (basis a (MWs F) La E2 PM E3) as (D & B1 & B2 & B3 & B4 & B5).
    set (z := map (fun x => x / lsum (map2 Rdiv a (MWs F))) (map2 Rdiv a (MWs F))) in *. fold (MWmix F z) in *.
    pose proof (MWmix_pos F G z B1 B2 B3) as PW.
    assert (Hz : zs_calc o = Ok (Some (somes z))).
    { unfold zs_calc. rewrite (O f_zs), (O f_ns), (O f_ws), (O f_Vfls), (O f_Vfgs), K by discriminate. rewrite complete_somes, vals_somes.
      unfold withfl. rewrite FL, E1. cbn [lift bind]. unfold ws_to_zs. rewrite anyzero_pos by auto. fold a. rewrite normalize_ok by lra. reflexivity. }
    assert (Hl : map2 (fun x M => lsum l * 1000 / MWmix F z * x * M / 1000) z (MWs F) = l).
    { transitivity (map (fun x => lsum l * x) a); [|exact E4]. rewrite <- B5, map_map2. apply map2_ext. intros. field. lra. }
    exists (canon F z (lsum l * 1000 / MWmix F z)). splits; try discriminate; auto; [|apply canon_consistent; auto].
    apply canon_shows; auto.
    + unfold ns_calc. rewrite (O f_ns), F1, F2, K by discriminate. rewrite complete_somes, vals_somes. unfold withfl, zs_full.
      rewrite FL, Hz. cbn [bind]. rewrite full_somes. cbn [bind]. unfold mixing_simple.
      replace (lsum (map2 Rmult (MWs F) z)) with (MWmix F z)
        by (unfold MWmix; f_equal; rewrite map2_flip; apply map2_ext; intros; ring).
      rewrite Reqb_false by lra. reflexivity.
    + rewrite F1, F2, F4, F5, (O f_ws), (O f_Vfls), (O f_ns), (O f_Qls), (O f_Qgs), K by discriminate. splits; try discriminate.
      intros l' E. inversion E. unfold canon; cbn [v_ms]. now rewrite Hl.
  - destruct (basis a (Vls F) ltac:(lia) E2 PV E3) as (D & B1 & B2 & B3 & B4 & B5).
    set (z := map (fun x => x / lsum (map2 Rdiv a (Vls F))) (map2 Rdiv a (Vls F))) in *. fold (Vlmix F z) in *.
    assert (B1' : length z = length (MWs F)) by lia.
    pose proof (Vlmix_pos F G z B1' B2 B3) as PW.
    assert (Hz : zs_calc o = Ok (Some (somes z))).
    { unfold zs_calc. rewrite (O f_zs), (O f_ns), (O f_ws), (O f_Vfls), (O f_Vfgs), (O f_ms), K by discriminate. rewrite complete_somes, vals_somes.
      unfold withfl. rewrite FL, E1. cbn [lift bind]. unfold Vfs_to_zs. rewrite anyzero_pos by auto. fold a. rewrite normalize_ok by lra. reflexivity. }
    assert (Hl : map2 (fun x V => lsum l / Vlmix F z * x * V) z (Vls F) = l).
    { transitivity (map (fun x => lsum l * x) a); [|exact E4]. rewrite <- B5, map_map2. apply map2_ext. intros. field. lra. }
    exists (canon F z (lsum l / Vlmix F z)). splits; try discriminate; auto; [|apply canon_consistent; auto].
    apply canon_shows; auto.
    + unfold ns_calc. rewrite (O f_ns), (O f_ms), F1, F2, K by discriminate. rewrite complete_somes, vals_somes. unfold withfl.
      rewrite FL, anyzero_pos by auto. do 3 f_equal. rewrite map2_flip. rewrite <- Hl at 1. rewrite map2_map2_l. apply map2_fst; [lia|].
      intros x V _ I. pose proof (Forall_in _ _ _ PV I). simpl in *. field. lra.
    + rewrite F1, F2, F4, F5, (O f_ws), (O f_Vfls), (O f_ns), (O f_ms), (O f_Qgs), K by discriminate. splits; try discriminate.
      intros l' E. inversion E. unfold canon; cbn [v_Qls]. now rewrite Hl.
  - exists (canon F a (lsum l / Vgas F)).
    assert (Hl : map (fun x => lsum l / Vgas F * x * Vgas F) a = l).
    { transitivity (map (fun x => lsum l * x) a); [|exact E4]. apply map_ext. intros. field. lra. }
    splits; try discriminate; auto; [|apply canon_consistent; auto].
    apply canon_shows; auto.
    + unfold zs_calc. rewrite (O f_zs), (O f_ns), (O f_ws), (O f_Vfls), (O f_Vfgs), (O f_ms), (O f_Qls), K by discriminate.
      rewrite complete_somes, vals_somes, E1. reflexivity.
    + unfold ns_calc. rewrite (O f_ns), (O f_ms), (O f_Qls), F1, F2, F4, K by discriminate. rewrite complete_somes, vals_somes. unfold withfl.
      rewrite FL, Reqb_false by lra. fold (Vgas F). rewrite Reqb_false by lra. do 3 f_equal. unfold a. rewrite map_map. apply map_ext. intros. field. lra.
    + rewrite F1, F2, F4, F5, (O f_ws), (O f_Vfls), (O f_ns), (O f_ms), (O f_Qls), K by discriminate. splits; try discriminate.
      intros l' E. inversion E. unfold canon; cbn [v_Qgs]. now rewrite Hl.
Qed.
End Main.

(* ---- EquilibriumStream ---- *)
(* whatever was specified, the flow attributes agree with each other *)
Theorem C31_equilibrium_stream F V a b q : eq_stream F V a b = Some q ->
  length (q_zs q) = length (MWs F) -> lsum (q_zs q) = 1 ->
  q_ns q = map (fun z => q_n q * z) (q_zs q) /\ q_ms q = map2 (fun n M => n * M / 1000) (q_ns q) (MWs F) /\
  q_ms q = map (fun w => q_m q * w) (q_ws q) /\ lsum (q_ws q) = 1 /\ lsum (q_ns q) = q_n q /\ lsum (q_ms q) = q_m q.
Proof.
  unfold eq_stream. destruct (eq_stream_zs F a) as [z|]; [|discriminate].
  destruct (Reqb_spec (lsum (map2 Rmult z (MWs F))) 0) as [|W]; [discriminate|].
  set (MW := lsum (map2 Rmult z (MWs F))) in *.
  destruct (eq_stream_n _ _ _ _ _ _) as [n|]; [|discriminate]. intros E; inversion E; subst; clear E; cbn [q_zs q_ns q_ms q_ws q_n q_m].
  intros L S.
  assert (Wsum : lsum (map2 (fun zi Mi => zi * Mi * (1 / MW)) z (MWs F)) = 1).
  { erewrite (map2_ext _ (fun x M => / MW * (x * M))) by (intros; field; auto). rewrite lsum_scal2. fold MW. field. auto. }
  splits; auto.
  - rewrite map_map2, map2_map_l. apply map2_ext. intros. unfold property_mass_to_molar. field. auto.
  - rewrite lsum_scal, S. ring.
  - rewrite lsum_scal, Wsum. ring.
Qed.

(* and read back what was specified *)
Theorem C31_equilibrium_stream_readback F V a b q : good F -> eq_stream F V a b = Some q ->
  (forall x, b f_n = Some x -> q_n q = x) /\
  (forall x, b f_n = None -> b f_m = Some x -> q_m q = x) /\
  (forall x, (forall j, j <> f_Q -> b j = None) -> a f_ns = None -> a f_ms = None -> b f_Q = Some x -> q_n q * V = x) /\
  (forall l, (forall j, b j = None) -> a f_ns = Some l -> Forall (fun x => 0 <= x) l -> 0 < lsum l -> q_ns q = l) /\
  (forall l, (forall j, b j = None) -> a f_ns = None -> a f_ms = Some l -> length l = length (MWs F) ->
     Forall (fun x => 0 <= x) l -> 0 < lsum l -> q_ms q = l) /\
  (forall l, a f_ns = None -> a f_ms = None -> a f_ws = Some l -> length l = length (MWs F) ->
     Forall (fun x => 0 <= x) l -> lsum l = 1 -> q_ws q = l).
Proof.
  intros G. unfold eq_stream. destruct (eq_stream_zs F a) as [z|] eqn:Z; [|discriminate].
  destruct (Reqb_spec (lsum (map2 Rmult z (MWs F))) 0) as [|W]; [discriminate|].
  set (MW := lsum (map2 Rmult z (MWs F))) in *.
  destruct (eq_stream_n _ _ _ _ _ _) as [n|] eqn:N; [|discriminate]. intros E; inversion E; subst; clear E; cbn [q_zs q_ns q_ms q_ws q_n q_m].
  destruct G as (PM & PV & LV & PT & PP).
  splits.
  - intros x B. unfold eq_stream_n in N. rewrite B in N. congruence.
  - intros x B1 B2. unfold eq_stream_n in N. rewrite B1, B2 in N. unfold property_molar_to_mass in N. rewrite Reqb_false in N by auto.
    inversion N. unfold property_mass_to_molar. field. auto.
  - intros x B A1 A2 B2. unfold eq_stream_n in N. rewrite (B f_n), (B f_m), A1, A2, B2 in N by discriminate.
    destruct (Reqb_spec V 0); [discriminate|]. inversion N. field. auto.
  - intros l B A P S. destruct (norm_facts l P S) as (E1 & E2 & E3 & E4). unfold eq_stream_n in N. rewrite (B f_n), (B f_m), A in N.
    inversion N. subst. unfold eq_stream_zs in Z. rewrite A, E1 in Z. inversion Z. auto.
  - intros l B A1 A2 L P S. destruct (norm_facts l P S) as (E1 & E2 & E3 & E4). set (aa := map (fun x => x / lsum l) l) in *.
    unfold eq_stream_n in N. rewrite (B f_n), (B f_m), A1, A2 in N. unfold property_molar_to_mass in N. rewrite Reqb_false in N by auto.
    inversion N. clear N. unfold eq_stream_zs in Z. rewrite A1, A2, E1 in Z. unfold ws_to_zs in Z. rewrite anyzero_pos in Z by auto.
    assert (La : length aa = length (MWs F)) by (unfold aa; now rewrite map_length).
    destruct (basis aa (MWs F) La E2 PM E3) as (D & B1 & B2 & B3 & B4 & B5). rewrite normalize_ok in Z by (apply Rgt_not_eq; apply D).
    injection Z as Z'. rewrite Z' in B5. fold MW in B5. rewrite map_map2.
    transitivity (map (fun x => lsum l * x) aa); [|exact E4]. rewrite <- B5, map_map2. apply map2_ext. intros x M _ _.
    unfold property_mass_to_molar. field. auto.
  - intros l A1 A2 A3 L P S. unfold eq_stream_zs in Z. rewrite A1, A2, A3 in Z. unfold ws_to_zs in Z. rewrite anyzero_pos in Z by auto.
    destruct (basis l (MWs F) L P PM S) as (D & B1 & B2 & B3 & B4 & B5). rewrite normalize_ok in Z by (apply Rgt_not_eq; apply D).
    injection Z as Z'. rewrite Z' in B5. rewrite <- B5 at 1. apply map2_ext. intros. unfold MW, Rdiv. ring.
Qed.

(* flows that were not specified are shown as unknown, not as zero *)
Theorem C31_unknown o fs : (forall k, In k [f_n; f_m; f_Q; f_Ql; f_Qg] -> sc (spec o) k = None) ->
  (forall k, In k [f_ns; f_ms; f_Qls; f_Qgs] -> ls (spec o) k = None) ->
  ns_calc o fs = Ok None /\ ms_calc o fs = Ok None /\ Qls_calc o fs = Ok None /\ Qgs_calc o fs = Ok None /\
  n_calc o fs = Ok None /\ m_calc o fs = Ok None /\ Ql_calc o fs = Ok None /\ Qg_calc o fs = Ok None.
Proof.
  intros H K. assert (N : ns_calc o fs = Ok None). { unfold ns_calc. rewrite !K, !H by (simpl; tauto). reflexivity. }
  splits; auto; unfold ms_calc, Qls_calc, Qgs_calc, n_calc, m_calc, Ql_calc, Qg_calc, total, ms_calc, Qls_calc, Qgs_calc; rewrite ?K, ?H, ?N by (simpl; tauto); reflexivity.
Qed.
Theorem C31_unknown_component o fs l : multi (spec o) = false -> ls (spec o) f_ns = Some l -> complete l = false -> sc (spec o) f_n = None -> n_calc o fs = Ok None.
Proof. intros M E C N. unfold n_calc, ns_calc. rewrite N, E, C, M. cbn [bind]. rewrite C. reflexivity. Qed.

(* Mole fractions that do not sum to one make the views disagree: n_calc is the stored n, the sum of ns_calc is not *)
Theorem C31_unnormalized_refuted : exists o l, n_calc o Err = Ok (Some 1) /\ ns_calc o Err = Ok (Some (somes l)) /\ lsum l <> 1.
Proof.
  exists (mkobj (mkargs (fun k => match k with f_n => Some 1 | _ => None end)
                        (fun k => match k with f_zs => Some [Some 1; Some 1] | _ => None end) false) None None None), [1 * 1; 1 * 1].
  split; [reflexivity|]. split; [reflexivity|]. unfold lsum; simpl. lra.
Qed.

(* concrete case: water and methane, by mass, 2 kg/s *)
Example C31_hypotheses_met :
  let F := mkflasher [18; 16] [1 / 50000; 1 / 20000] 288 101325 (fun _ => Err) (fun _ => 1) (fun _ => 0) (fun _ _ => Err) in
  let s := mkargs (fun k => match k with f_m => Some 2 | _ => None end)
                  (fun k => match k with f_ws => Some (somes [1/4; 3/4]) | _ => None end) false in
  let o := mkobj s (Some F) None None in
  good F /\ fl o = Some F /\ multi (spec o) = false /\ only_list (spec o) f_ws [1/4; 3/4] /\ length [1/4; 3/4] = length (MWs F) /\
  Forall (fun x => 0 <= x) [1/4; 3/4] /\ lsum [1/4; 3/4] = 1 /\ only_flow (spec o) (Some (f_m, 2)).
Proof.
  intros F s o. unfold good, only_list, only_flow, F, s, o; cbn [MWs Vls T_gas_ref P_gas_ref fl spec multi ls sc length].
  splits; try lra; try reflexivity; try (repeat constructor; lra).
  - intros j D. destruct j; try reflexivity; congruence.
  - unfold lsum; simpl. lra.
  - intros j I. simpl in I. repeat (destruct I as [<-|I]; [reflexivity|]). destruct I.
Qed.
