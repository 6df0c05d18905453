(* C33: energy_balance closes the energy balance. *)
From Coq Require Import Reals List Bool Arith Lra Lia.
From Verif Require Import Base BaseFacts Model_stream Model_balance Model_energy Prop_C32.
Import ListNotations.
Open Scope R_scope.

(* ---- specification ---- *)
(* molar flow, mass flow and molar enthalpy a stream specifies, directly or through its flash *)
Definition molar (s : estream) : option R := match s with Args a => match flo a with Some (Molar n) => Some n | Some (Mass m) => Some (m * 1000 / MW a) | None => None end | _ => None end.
Definition mass (s : estream) : option R :=
  match s with EnergyStream _ => Some 0 | EquilibriumStream _ _ m => Some m
  | Args a => match flo a with Some (Molar n) => Some (n * MW a / 1000) | Some (Mass m) => Some m | None => None end end.
Definition enthalpy (a : sargs) : option R :=
  match H a, H_mass a with Some h, _ => Some h | None, Some h => Some (h * MW a / 1000) | None, None => flashed a end.
(* flow of energy: as specified, or molar flow times molar enthalpy *)
Definition energy_flow (s : estream) : option R :=
  match s with
  | EnergyStream Q => Q
  | EquilibriumStream E _ _ => Some E
  | Args a => match energy a with Some e => Some e | None =>
      match molar s, enthalpy a with Some n, Some h => Some (n * h) | _, _ => None end end
  end.
Definition all_some (f : estream -> option R) (l : list estream) : Prop := forall s, In s l -> f s <> None.
Definition total (f : estream -> option R) (l : list estream) : R := lsum (map (fun s => match f s with Some x => x | None => 0 end) l).
Definition closes (f : estream -> option R) (ins outs : list estream) : Prop := all_some f ins /\ all_some f outs /\ total f ins = total f outs.
Definition sound (s : estream) : Prop := match s with Args a => 0 < MW a | _ => True end.
Definition same_but (i : nat) (l l' : list estream) : Prop := length l' = length l /\ forall k, k <> i -> nth k l' edflt = nth k l edflt.

(* ---- the code's reading of energies is the specification's ---- *)
Lemma energy_calc_spec a : 0 < MW a -> energy_calc a = energy_flow (Args a).
Proof.
  intros M. unfold energy_calc, energy_flow, enthalpy, molar, n_calc, m_calc. destruct (energy a) as [e|] eqn:E; auto.
  destruct (H a) as [h|] eqn:Hh.
  - destruct (flo a) as [[n|m]|]; auto. destruct (H_mass a); auto.
  - destruct (H_mass a) as [hm|] eqn:Hm.
    + destruct (flo a) as [[n|m]|]; auto; f_equal; field; lra.
    + destruct (flo a) as [[n|m]|]; auto; destruct (flashed a); auto; f_equal; ring.
Qed.
Lemma energy_of_flow r s x : sound s -> energy_of r s = Some x -> energy_flow s = Some x.
Proof.
  destruct s as [Q|E h m|a]; simpl energy_of; auto. intros M. destruct r.
  - intros E. unfold energy_flow. rewrite E. reflexivity.
  - rewrite energy_calc_spec; auto.
Qed.
Lemma energy_of_false s : sound s -> energy_of false s = energy_flow s.
Proof. destruct s; auto. apply energy_calc_spec. Qed.
Lemma known_sum_total f l : known_sum (map f l) = total f l.
Proof. unfold known_sum, total, vals. now rewrite map_map. Qed.
Lemma unknowns_in r l i : In i (unknowns r l) <-> (i < length l)%nat /\ energy_of r (nth i l edflt) = None.
Proof. unfold unknowns. rewrite positions_in. destruct (energy_of r _); simpl; intuition congruence. Qed.
Lemma unknowns_none r l : unknowns r l = [] <-> all_some (energy_of r) l.
Proof.
  unfold unknowns. rewrite positions_nil. split.
  - intros Z s I. destruct (In_nth l s edflt I) as (i & J & <-). specialize (Z i J). cbv beta in Z. destruct (energy_of r _); simpl in Z; congruence.
  - intros Z i I. specialize (Z _ (nth_In l edflt I)). destruct (energy_of r _); simpl; congruence.
Qed.
Lemma total_ext f g l : (forall s, In s l -> f s = g s) -> total f l = total g l.
Proof. intros E. unfold total. f_equal. apply map_ext_in. intros s I. rewrite E; auto. Qed.
Lemma total_lset f l i s : (i < length l)%nat ->
  total f (lset l i s) = total f l - match f (nth i l edflt) with Some x => x | None => 0 end + match f s with Some x => x | None => 0 end.
Proof. intros I. unfold total. now rewrite (lsum_lset _ _ _ _ edflt). Qed.
Lemma lset_same_but l i s : same_but i l (lset l i s).
Proof. split; [apply lset_length|]. intros k D. rewrite nth_lset. destruct (Nat.eqb_spec k i); [congruence | reflexivity]. Qed.
(* replacing the only unknown by something known *)
Lemma all_some_lset f l i s : (forall k, (k < length l)%nat -> k <> i -> f (nth k l edflt) <> None) -> f s <> None -> all_some f (lset l i s).
Proof.
  intros O S t I. destruct (in_lset l i s t edflt I) as [->|(k & K & D & ->)]; auto.
Qed.
Lemma one_unknown r l i : unknowns r l = [i] -> (i < length l)%nat /\ energy_of r (nth i l edflt) = None /\
  forall k, (k < length l)%nat -> k <> i -> energy_of r (nth k l edflt) <> None.
Proof.
  unfold unknowns. intros E. apply positions_one in E. destruct E as (I & U & O). splits; auto.
  - destruct (energy_of r _); [discriminate | reflexivity].
  - intros k K D. specialize (O k K D). cbv beta in O. intros Z; rewrite Z in O; discriminate.
Qed.
Lemma set_energy_reads r s e s' : set_energy r s e = Some s' -> energy_of r s' = Some e.
Proof.
  destruct s as [Q|E h m|a]; simpl; intros Z; try (inversion Z; reflexivity); try discriminate.
  destruct (_ && _)%bool; inversion Z. destruct r; reflexivity.
Qed.

(* ---- a single unknown ---- *)
Theorem C33_single r um ins outs ins' outs' : (length (unknowns r ins) + length (unknowns r outs) = 1)%nat ->
  balance_energies r um ins outs = Returns true ins' outs' ->
  closes (energy_of r) ins' outs' /\
  (exists i, (i < length ins)%nat /\ same_but i ins ins' /\ outs' = outs /\ energy_of r (nth i ins edflt) = None \/
             (i < length outs)%nat /\ same_but i outs outs' /\ ins' = ins /\ energy_of r (nth i outs edflt) = None).
Proof.
  intros L E. unfold balance_energies in E. rewrite !known_sum_total in E.
  destruct (unknowns r ins) as [|i [|? ?]] eqn:U1; destruct (unknowns r outs) as [|k [|? ?]] eqn:U2; simpl in L; try lia.
  - unfold replace in E. destruct (set_energy r (nth k outs edflt) _) as [s|] eqn:S; inversion E; subst.
    apply set_energy_reads in S. apply one_unknown in U2. destruct U2 as (K & N & O). apply unknowns_none in U1. split.
    + split; [auto|]. split; [apply all_some_lset; auto; congruence|]. rewrite total_lset by auto. rewrite N, S. lra.
    + exists k. right. splits; auto using lset_same_but.
  - unfold replace in E. destruct (set_energy r (nth i ins edflt) _) as [s|] eqn:S; inversion E; subst.
    apply set_energy_reads in S. apply one_unknown in U1. destruct U1 as (K & N & O). apply unknowns_none in U2. split.
    + split; [apply all_some_lset; auto; congruence|]. split; [auto|]. rewrite total_lset by auto. rewrite N, S. lra.
    + exists i. left. splits; auto using lset_same_but.
Qed.
(* the same in terms of the specification's energies *)
Theorem C33_single_energy um ins outs ins' outs' : (length (unknowns false ins) + length (unknowns false outs) = 1)%nat ->
  (forall s, In s ins' \/ In s outs' -> sound s) -> balance_energies false um ins outs = Returns true ins' outs' -> closes energy_flow ins' outs'.
Proof.
  intros L S E. destruct (C33_single _ _ _ _ _ _ L E) as [(A & B & C) _]. split; [|split].
  - intros s I. rewrite <- energy_of_false by auto. auto.
  - intros s I. rewrite <- energy_of_false by auto. auto.
  - rewrite <- (total_ext (energy_of false) energy_flow ins'), <- (total_ext (energy_of false) energy_flow outs'); auto; intros; apply energy_of_false; auto.
Qed.
(* and it does return: no exception for streams with at most two state specifications *)
Theorem C33_single_returns um ins outs : (length (unknowns false ins) + length (unknowns false outs) = 1)%nat ->
  (forall a, In (Args a) ins \/ In (Args a) outs -> (state_vars false a <= 2)%nat) ->
  exists ins' outs', balance_energies false um ins outs = Returns true ins' outs'.
Proof.
  intros L W. assert (ok : forall s e, energy_of false s = None -> (forall a, s = Args a -> (state_vars false a <= 2)%nat) -> set_energy false s e <> None).
  { intros s e N V. destruct s as [Q|E h m|a]; simpl in *; try discriminate. specialize (V a eq_refl).
    destruct (_ && _)%bool eqn:B; [|discriminate]. apply andb_true_iff in B. destruct B as [B1 B3]. apply andb_true_iff in B1. destruct B1 as [B1 B2].
    apply Nat.ltb_lt in B1. unfold energy_calc in N. destruct (energy a) eqn:Ea; [discriminate|].
    unfold n_calc, m_calc, flashed, state_specified, state_vars in *. rewrite Ea in *.
    destruct (flo a) as [[n|m]|]; [| |discriminate]; destruct (H a); try discriminate; destruct (H_mass a); try discriminate;
      simpl one in *; replace (Nat.eqb _ 2) with true in N by (symmetry; apply Nat.eqb_eq; lia); discriminate. }
  unfold balance_energies. destruct (unknowns false ins) as [|i [|? ?]] eqn:U1; destruct (unknowns false outs) as [|k [|? ?]] eqn:U2; simpl in L; try lia.
  - apply one_unknown in U2. destruct U2 as (K & N & O). unfold replace. destruct (set_energy false _ _) eqn:S; eauto.
    exfalso. revert S. apply ok; auto. intros a E. apply W. right. rewrite <- E. now apply nth_In.
  - apply one_unknown in U1. destruct U1 as (K & N & O). unfold replace. destruct (set_energy false _ _) eqn:S; eauto.
    exfalso. revert S. apply ok; auto. intros a E. apply W. left. rewrite <- E. now apply nth_In.
Qed.
(* nothing unknown, or nothing computable: nothing changes *)
Theorem C33_no_progress r um ins outs ins' outs' : energy_balance r um ins outs = Returns false ins' outs' -> ins' = ins /\ outs' = outs.
Proof.
  assert (B : balance_energies r um ins outs = Returns false ins' outs' -> ins' = ins /\ outs' = outs).
  { assert (T : forall a b e f n, (forall l, f l = Raises \/ exists x y, f l = Returns true x y) -> n = Returns false ins outs -> two_unknown a b r e f n = Returns false ins' outs' -> ins' = ins /\ outs' = outs).
    { intros a b e f n F -> E. unfold two_unknown, bindo, replace in E.
      destruct (positions _ _ a) as [|? [|? [|? ?]]]; try (inversion E; auto; fail).
      destruct (flash_H_mass _); try discriminate. destruct (flash_H_mass _); try discriminate. destruct (others_m a _); try discriminate. destruct (others_m b _); try discriminate.
      destruct (Reqb _ _); try discriminate. destruct (set_m _ _); try discriminate. destruct (set_m _ _); try discriminate.
      match type of E with f ?l = _ => destruct (F l) as [Q|(x & y & Q)] end; rewrite Q in E; discriminate. }
    unfold balance_energies, replace, bindo. destruct (unknowns r ins) as [|i [|i2 [|? ?]]]; destruct (unknowns r outs) as [|k [|k2 [|? ?]]]; intros E;
      repeat match type of E with context [match ?x with Some _ => _ | None => _ end] => destruct x; try discriminate end;
      repeat match type of E with context [if ?x then _ else _] => destruct x; try discriminate end;
      repeat match type of E with context [match ?x with Some _ => _ | None => _ end] => destruct x; try discriminate end;
      try (inversion E; auto; fail).
    all: eapply T; [| |exact E]; eauto.
    all: repeat match type of E with context [if ?x then _ else _] => destruct x; try discriminate end;
      repeat match type of E with context [match ?x with Some _ => _ | None => _ end] => destruct x; try discriminate end. }
  unfold energy_balance. destruct ins as [|fin [|? ?]]; auto. destruct outs as [|fout [|? ?]]; auto.
  destruct (_ || _)%bool; auto. destruct (H_of fin), (H_of fout); auto; unfold bindo; destruct (set_H _ _); intros E; discriminate.
Qed.

(* ---- two unknowns, closed with the mass balance ---- *)
Lemma osum_some l m : osum l = Some m -> (forall o, In o l -> o <> None) /\ m = lsum (vals l).
Proof.
  revert m; induction l as [|o l IH]; simpl; intros m E.
  - inversion E. split; [intros ? []|]. reflexivity.
  - destruct o as [x|]; [|discriminate]. fold (osum l) in E. destruct (osum l) as [y|]; [|discriminate]. inversion E. destruct (IH y eq_refl) as [A B]. split.
    + intros o [<-|I]; [discriminate | auto].
    + unfold vals, lsum in *. simpl. now rewrite B.
Qed.
Lemma mass_attr s m : m_attr s = Some m -> mass s = Some m.
Proof. destruct s as [Q|E h x|a]; simpl; auto. destruct (flo a) as [[n|x]|]; auto; discriminate. Qed.
Lemma seq_nth_self {A} (l : list A) d : l = map (fun i => nth i l d) (seq 0 (length l)).
Proof.
  induction l as [|x l IH]; [reflexivity|]. cbn [length seq map nth]. f_equal. rewrite IH at 1. rewrite <- seq_shift, map_map. reflexivity.
Qed.
Lemma sum_total_skip (f : estream -> option R) skip (l : list estream) :
  lsum (map (fun i => if existsb (Nat.eqb i) skip then 0 else match f (nth i l edflt) with Some x => x | None => 0 end) (seq 0 (length l))) +
  lsum (map (fun i => if existsb (Nat.eqb i) skip then match f (nth i l edflt) with Some x => x | None => 0 end else 0) (seq 0 (length l))) = total f l.
Proof.
  unfold total. replace (map (fun s => match f s with Some x => x | None => 0 end) l) with (map (fun i => match f (nth i l edflt) with Some x => x | None => 0 end) (seq 0 (length l)))
    by (rewrite <- (map_map (fun i => nth i l edflt) (fun s => match f s with Some x => x | None => 0 end)), <- seq_nth_self; reflexivity). generalize (seq 0 (length l)) as q. intros q. induction q as [|i q IH]; unfold lsum in *; simpl; [lra|].
  destruct (existsb (Nat.eqb i) skip); lra.
Qed.
Lemma sum_pick1 (g : nat -> R) i n : (i < n)%nat -> lsum (map (fun k => if existsb (Nat.eqb k) [i] then g k else 0) (seq 0 n)) = g i.
Proof.
  intros I. assert (E : forall a m, lsum (map (fun k => if existsb (Nat.eqb k) [i] then g k else 0) (seq a m)) = if (Nat.leb a i && Nat.ltb i (a + m))%bool then g i else 0).
  { intros a m; revert a; induction m; intros a; unfold lsum in *; cbn [seq map fold_right].
    - replace (Nat.leb a i && Nat.ltb i (a + 0))%bool with false; auto. symmetry. apply andb_false_iff. destruct (Nat.leb_spec a i); [right; apply Nat.ltb_ge; lia | left; auto].
    - rewrite IHm. cbn [existsb]. rewrite orb_false_r. destruct (Nat.eqb_spec a i) as [->|D].
      + replace (Nat.leb (S i) i) with false by (symmetry; apply Nat.leb_gt; lia). rewrite Nat.leb_refl. replace (Nat.ltb i (i + S m)) with true by (symmetry; apply Nat.ltb_lt; lia). simpl. lra.
      + replace (Nat.leb (S a) i) with (Nat.leb a i) by (destruct (Nat.leb_spec a i); symmetry; [apply Nat.leb_le | apply Nat.leb_gt]; lia).
        replace (S a + m)%nat with (a + S m)%nat by lia. lra. }
  rewrite E. replace (Nat.ltb i (0 + n)) with true by (symmetry; apply Nat.ltb_lt; lia). reflexivity.
Qed.
Lemma sum_pick2 (g : nat -> R) i j n : (i < n)%nat -> (j < n)%nat -> i <> j -> lsum (map (fun k => if existsb (Nat.eqb k) [i; j] then g k else 0) (seq 0 n)) = g i + g j.
Proof.
  intros I J D. rewrite <- (sum_pick1 g i n I), <- (sum_pick1 g j n J). generalize (seq 0 n) as q. intros q.
  induction q as [|k q IH]; unfold lsum in *; simpl in *; [lra|]. rewrite !orb_false_r in *.
  destruct (Nat.eqb_spec k i), (Nat.eqb_spec k j); simpl; try lra. congruence.
Qed.
Lemma others_m_spec l skip m : others_m l skip = Some m ->
  (forall k, (k < length l)%nat -> existsb (Nat.eqb k) skip = false -> mass (nth k l edflt) <> None) /\
  m = lsum (map (fun i => if existsb (Nat.eqb i) skip then 0 else match mass (nth i l edflt) with Some x => x | None => 0 end) (seq 0 (length l))).
Proof.
  intros E. apply osum_some in E. destruct E as [A B]. split.
  - intros k K S. specialize (A (m_attr (nth k l edflt))).
    assert (m_attr (nth k l edflt) <> None). { apply A. apply in_map_iff. exists k. rewrite S. split; auto. apply in_seq. lia. }
    destruct (m_attr (nth k l edflt)) eqn:E; [|congruence]. rewrite (mass_attr _ _ E). discriminate.
  - rewrite B. unfold vals. rewrite map_map. f_equal. apply map_ext_in. intros k K. apply in_seq in K.
    destruct (existsb (Nat.eqb k) skip) eqn:S; auto. specialize (A (m_attr (nth k l edflt))).
    assert (m_attr (nth k l edflt) <> None). { apply A. apply in_map_iff. exists k. rewrite S. split; auto. apply in_seq. lia. }
    destruct (m_attr (nth k l edflt)) eqn:E; [|congruence]. rewrite (mass_attr _ _ E). reflexivity.
Qed.
Lemma others_m_none l m : others_m l [] = Some m -> all_some mass l /\ total mass l = m.
Proof.
  intros E. apply others_m_spec in E. destruct E as [A B]. split.
  - intros s I. destruct (In_nth l s edflt I) as (k & K & <-). apply A; auto.
  - rewrite B, <- (sum_total_skip mass []). cbn [existsb].
    replace (lsum (map (fun _ : nat => 0) (seq 0 (length l)))) with 0; [lra|]. generalize (seq 0 (length l)) as q. induction q; unfold lsum in *; simpl; [lra|]. rewrite <- IHq. lra.
Qed.
Lemma others_m_one l i m : (i < length l)%nat -> others_m l [i] = Some m ->
  (forall k, (k < length l)%nat -> k <> i -> mass (nth k l edflt) <> None) /\ total mass l = m + match mass (nth i l edflt) with Some x => x | None => 0 end.
Proof.
  intros I E. apply others_m_spec in E. destruct E as [A B]. split.
  - intros k K D. apply A; auto. simpl. destruct (Nat.eqb_spec k i); [congruence | reflexivity].
  - rewrite B, <- (sum_total_skip mass [i]). f_equal. now rewrite sum_pick1.
Qed.
Lemma others_m_two l i j m : (i < length l)%nat -> (j < length l)%nat -> i <> j -> others_m l [i; j] = Some m ->
  (forall k, (k < length l)%nat -> k <> i -> k <> j -> mass (nth k l edflt) <> None) /\
  total mass l = m + match mass (nth i l edflt) with Some x => x | None => 0 end + match mass (nth j l edflt) with Some x => x | None => 0 end.
Proof.
  intros I J D E. apply others_m_spec in E. destruct E as [A B]. split.
  - intros k K D1 D2. apply A; auto. simpl. destruct (Nat.eqb_spec k i); [congruence|]. destruct (Nat.eqb_spec k j); [congruence | reflexivity].
  - rewrite B, <- (sum_total_skip mass [i; j]), sum_pick2; auto. ring.
Qed.
(* a stream whose energy is not specified, flashed at h per unit mass, once given the mass flow m *)
Lemma set_m_spec r s m s' h : sound s -> energy_of r s = None -> flash_H_mass s = Some h -> set_m s m = Some s' ->
  mass s' = Some m /\ energy_flow s' = Some (m * h) /\ sound s'.
Proof.
  destruct s as [Q|E hh x|a]; simpl; try discriminate. intros M N F S.
  assert (Ea : energy a = None). { destruct r; auto. unfold energy_calc in N. destruct (energy a); [discriminate | reflexivity]. }
  destruct (flashed a) as [f|] eqn:Fl; [|discriminate]. inversion F; subst h; clear F.
  assert (E' : s' = Args (mkargs (energy a) (H a) (H_mass a) (Some (Mass m)) (MW a) (others a) (flash_H a))) by (destruct (flo a) as [[?|?]|]; congruence).
  subst s'. split; [reflexivity|]. split; [|exact M].
  unfold energy_flow, molar, enthalpy; cbn [energy flo MW H H_mass]. rewrite Ea.
  unfold flashed, state_specified in *. cbn [energy flo MW H H_mass others flash_H] in *. rewrite Ea in *.
  destruct (Nat.eqb _ 2); [|discriminate]. destruct (H a); [inversion Fl; f_equal; field; lra|]. destruct (H_mass a); inversion Fl; f_equal; field; lra.
Qed.

Lemma totals_flow r l : (forall s, In s l -> sound s) -> all_some (energy_of r) l -> all_some energy_flow l /\ total energy_flow l = total (energy_of r) l.
Proof.
  intros S A. split.
  - intros s I. specialize (A s I). destruct (energy_of r s) eqn:E; [|congruence]. rewrite (energy_of_flow r s r0); auto; discriminate.
  - apply total_ext. intros s I. specialize (A s I). destruct (energy_of r s) eqn:E; [|congruence]. rewrite (energy_of_flow r s r0); auto.
Qed.

Lemma total_swap (f g : estream -> option R) i s : forall l, (i < length l)%nat -> g (nth i l edflt) = None ->
  (forall k, (k < length l)%nat -> k <> i -> f (nth k l edflt) = g (nth k l edflt)) ->
  total f (lset l i s) = total g l + match f s with Some x => x | None => 0 end.
Proof.
  induction i as [|i IH]; intros [|y l] I N O; simpl in I; try lia; unfold total, lsum in *; simpl in *.
  - rewrite N. assert (E : map (fun s0 => match f s0 with Some x => x | None => 0 end) l = map (fun s0 => match g s0 with Some x => x | None => 0 end) l).
    { apply map_ext_in. intros t T. destruct (In_nth l t edflt T) as (k & K & <-). rewrite (O (S k)) by lia. reflexivity. }
    rewrite E. lra.
  - rewrite IH by (try lia; auto; intros k K D; apply (O (S k)); lia). rewrite (O 0%nat) by lia. lra.
Qed.
Lemma known_flow r s : sound s -> energy_of r s <> None -> energy_flow s = energy_of r s /\ energy_flow s <> None.
Proof. intros S N. destruct (energy_of r s) eqn:E; [|congruence]. rewrite (energy_of_flow r s r0) by auto. split; [auto | discriminate]. Qed.

(* one unknown inlet and one unknown outlet, both of known state: energy and mass both close *)
Theorem C33_in_out_with_mass r ins outs i k ins' outs' : (forall s, In s ins \/ In s outs -> sound s) ->
  unknowns r ins = [i] -> unknowns r outs = [k] -> balance_energies r true ins outs = Returns true ins' outs' ->
  closes mass ins' outs' /\ closes energy_flow ins' outs' /\ same_but i ins ins' /\ same_but k outs outs'.
Proof.
  intros S U1 U2 E. unfold balance_energies in E. rewrite U1, U2 in E. rewrite !known_sum_total in E.
  apply one_unknown in U1. destruct U1 as (I & Ni & Oi). apply one_unknown in U2. destruct U2 as (K & Nk & Ok).
  cbn [andb] in E. destruct (specified_args _ && specified_args _)%bool; [|discriminate]. unfold bindo, replace in E.
  destruct (flash_H_mass (nth i ins edflt)) as [hi|] eqn:Hi; [|discriminate]. destruct (flash_H_mass (nth k outs edflt)) as [ho|] eqn:Ho; [|discriminate].
  destruct (others_m ins [i]) as [mi|] eqn:Mi; [|discriminate]. destruct (others_m outs [k]) as [mo|] eqn:Mo; [|discriminate].
  destruct (Reqb_spec (hi - ho) 0) as [|D]; [discriminate|].
  destruct (set_m (nth i ins edflt) _) as [si|] eqn:Si; [|discriminate]. destruct (set_m (nth k outs edflt) _) as [so|] eqn:So; [|discriminate].
  inversion E; subst ins' outs'; clear E.
  destruct (set_m_spec r _ _ _ _ (S _ (or_introl (nth_In ins edflt I))) Ni Hi Si) as (A1 & A2 & A3).
  destruct (set_m_spec r _ _ _ _ (S _ (or_intror (nth_In outs edflt K))) Nk Ho So) as (B1 & B2 & B3).
  apply others_m_one in Mi; auto. destruct Mi as [Mi1 Mi2]. apply others_m_one in Mo; auto. destruct Mo as [Mo1 Mo2].
  assert (Ei : total energy_flow (lset ins i si) = total (energy_of r) ins + match energy_flow si with Some x => x | None => 0 end).
  { apply total_swap; auto. intros q Q Dq. apply known_flow; auto. apply S. left. now apply nth_In. }
  assert (Eo : total energy_flow (lset outs k so) = total (energy_of r) outs + match energy_flow so with Some x => x | None => 0 end).
  { apply total_swap; auto. intros q Q Dq. apply known_flow; auto. apply S. right. now apply nth_In. }
  splits; try (apply lset_same_but).
  - split; [|split].
    + apply all_some_lset; auto; congruence.
    + apply all_some_lset; auto; congruence.
    + rewrite !total_lset by auto. rewrite Mi2, Mo2, A1, B1. field; auto.
  - split; [|split].
    + apply all_some_lset; [|congruence]. intros q Q Dq. apply (known_flow r); auto. apply S. left. now apply nth_In.
    + apply all_some_lset; [|congruence]. intros q Q Dq. apply (known_flow r); auto. apply S. right. now apply nth_In.
    + rewrite Ei, Eo, A2, B2. field; auto.
Qed.

(* two unknowns on one side, the two streams of known state being the two unknown ones *)
Lemma two_unknown_closes r mine other i k e fin no mine' other' b : (forall s, In s mine \/ In s other -> sound s) ->
  unknowns r mine = [i; k] -> unknowns r other = [] -> positions specified_args edflt mine = [i; k] -> e = total (energy_of r) other ->
  two_unknown mine other r e fin no = Returns b mine' other' ->
  exists m', fin m' = Returns b mine' other' /\ closes mass m' other /\ closes energy_flow m' other /\ length m' = length mine /\
    forall q, q <> i -> q <> k -> nth q m' edflt = nth q mine edflt.
Proof.
  intros S U1 U2 P He E. unfold two_unknown in E. rewrite P, known_sum_total in E. unfold bindo, replace in E.
  assert (Z : (i < length mine)%nat /\ (k < length mine)%nat /\ i <> k /\ energy_of r (nth i mine edflt) = None /\ energy_of r (nth k mine edflt) = None /\
     forall q, (q < length mine)%nat -> q <> i -> q <> k -> energy_of r (nth q mine edflt) <> None).
  { assert (Ii : In i (unknowns r mine)) by (rewrite U1; simpl; auto). assert (Ik : In k (unknowns r mine)) by (rewrite U1; simpl; auto).
    apply unknowns_in in Ii, Ik. assert (N : NoDup (unknowns r mine)) by (apply NoDup_filter, seq_NoDup). rewrite U1 in N. apply NoDup_cons_iff in N. destruct N as [N _]. simpl in N.
    assert (Dik : i <> k) by (intros ->; tauto).
    assert (Oq : forall q, (q < length mine)%nat -> q <> i -> q <> k -> energy_of r (nth q mine edflt) <> None).
    { intros q Q D1 D2 X. assert (Y : In q (unknowns r mine)) by (apply unknowns_in; auto). rewrite U1 in Y. simpl in Y. intuition. }
    tauto. }
  destruct Z as (I & K & D & Ni & Nk & O).
  destruct (flash_H_mass (nth i mine edflt)) as [hi|] eqn:Hi; [|discriminate]. destruct (flash_H_mass (nth k mine edflt)) as [hk|] eqn:Hk; [|discriminate].
  destruct (others_m mine [i; k]) as [m|] eqn:Mi; [|discriminate]. destruct (others_m other []) as [mo|] eqn:Mo; [|discriminate].
  destruct (Reqb_spec (hi - hk) 0) as [|Dh]; [discriminate|].
  destruct (set_m (nth i mine edflt) _) as [si|] eqn:Si; [|discriminate].
  rewrite nth_lset in E. destruct (Nat.eqb_spec k i) as [|_]; [congruence|]. cbn [andb] in E.
  destruct (set_m (nth k mine edflt) _) as [sk|] eqn:Sk; [|discriminate].
  destruct (set_m_spec r _ _ _ _ (S _ (or_introl (nth_In mine edflt I))) Ni Hi Si) as (A1 & A2 & A3).
  destruct (set_m_spec r _ _ _ _ (S _ (or_introl (nth_In mine edflt K))) Nk Hk Sk) as (B1 & B2 & B3).
  apply others_m_two in Mi; auto. destruct Mi as [Mi1 Mi2]. apply others_m_none in Mo. destruct Mo as [Mo1 Mo2].
  apply unknowns_none in U2. destruct (totals_flow r other) as [To1 To2]; auto.
  assert (nk : nth k (lset mine i si) edflt = nth k mine edflt) by (rewrite nth_lset; destruct (Nat.eqb_spec k i); [congruence | reflexivity]).
  exists (lset (lset mine i si) k sk). split; [exact E|]. splits.
  - split; [|split; auto].
    + apply all_some_lset; [|congruence]. intros q Q Dq. rewrite lset_length in Q. rewrite nth_lset. destruct (Nat.eqb_spec q i) as [->|].
      * replace (Nat.ltb i (length mine)) with true by (symmetry; apply Nat.ltb_lt; auto). simpl. congruence.
      * simpl. auto.
    + rewrite total_lset by (now rewrite lset_length). rewrite total_lset by auto. rewrite nk, Mi2, A1, B1, Mo2.
      destruct (mass (nth i mine edflt)), (mass (nth k mine edflt)); field; auto.
  - split; [|split; auto].
    + apply all_some_lset; [|congruence]. intros q Q Dq. rewrite lset_length in Q. rewrite nth_lset. destruct (Nat.eqb_spec q i) as [->|].
      * replace (Nat.ltb i (length mine)) with true by (symmetry; apply Nat.ltb_lt; auto). simpl. congruence.
      * simpl. apply (known_flow r); auto. apply S. left. now apply nth_In.
    + rewrite To2, <- He. clear E.
      assert (T : total energy_flow mine = total (energy_of r) mine + match energy_flow (nth i mine edflt) with Some x => x | None => 0 end + match energy_flow (nth k mine edflt) with Some x => x | None => 0 end).
      { rewrite <- (sum_total_skip energy_flow [i; k]), <- (sum_total_skip (energy_of r) [i; k]), !sum_pick2 by auto. rewrite Ni, Nk.
        match goal with |- lsum (map ?f ?l) + _ = lsum (map ?g _) + _ + _ + _ => replace (map f l) with (map g l); [lra|] end.
        apply map_ext_in. intros q Q. apply in_seq in Q. destruct (existsb (Nat.eqb q) [i; k]) eqn:X; auto. simpl in X.
        destruct (Nat.eqb_spec q i); [discriminate|]. destruct (Nat.eqb_spec q k); [discriminate|].
        destruct (known_flow r (nth q mine edflt)) as [-> _]; auto; [apply S; left; apply nth_In; lia | apply O; auto; lia]. }
      rewrite total_lset by (now rewrite lset_length). rewrite total_lset by auto. rewrite nk, A2, B2, T.
      destruct (energy_flow (nth i mine edflt)), (energy_flow (nth k mine edflt)); field; auto.
  - now rewrite !lset_length.
  - intros q D1 D2. rewrite !nth_lset. destruct (Nat.eqb_spec q k); [congruence|]. destruct (Nat.eqb_spec q i); [congruence | reflexivity].
Qed.

Theorem C33_two_inlets_with_mass r ins outs i k ins' outs' : (forall s, In s ins \/ In s outs -> sound s) ->
  unknowns r ins = [i; k] -> unknowns r outs = [] -> positions specified_args edflt ins = [i; k] ->
  balance_energies r true ins outs = Returns true ins' outs' ->
  closes mass ins' outs' /\ closes energy_flow ins' outs' /\ outs' = outs /\ forall q, q <> i -> q <> k -> nth q ins' edflt = nth q ins edflt.
Proof.
  intros S U1 U2 P E. unfold balance_energies in E. rewrite U1, U2 in E. rewrite !known_sum_total in E.
  destruct (two_unknown_closes r ins outs i k _ _ _ _ _ _ S U1 U2 P eq_refl E) as (m & F & A & B & L & O). inversion F; subst. auto.
Qed.
Theorem C33_two_outlets_with_mass r ins outs i k ins' outs' : (forall s, In s ins \/ In s outs -> sound s) ->
  unknowns r outs = [i; k] -> unknowns r ins = [] -> positions specified_args edflt outs = [i; k] ->
  balance_energies r true ins outs = Returns true ins' outs' ->
  closes mass ins' outs' /\ closes energy_flow ins' outs' /\ ins' = ins /\ forall q, q <> i -> q <> k -> nth q outs' edflt = nth q outs edflt.
Proof.
  intros S U1 U2 P E. unfold balance_energies in E. rewrite U1, U2 in E. rewrite !known_sum_total in E.
  assert (S' : forall s, In s outs \/ In s ins -> sound s) by (intros; apply S; tauto).
  assert (T : two_unknown outs ins r (total (energy_of r) ins) (fun outs' => Returns true outs' ins) (Returns false outs ins) = Returns true outs' ins').
  { unfold two_unknown in *. rewrite P in *. unfold bindo, replace in *.
    repeat match type of E with context [match ?x with Some _ => _ | None => _ end] => destruct x; [|discriminate] end.
    destruct (Reqb _ _); [discriminate|].
    repeat match type of E with context [match ?x with Some _ => _ | None => _ end] => destruct x; [|discriminate] end. inversion E; reflexivity. }
  destruct (two_unknown_closes r outs ins i k _ _ _ _ _ _ S' U1 U2 P eq_refl T) as (m & F & A & B & L & O). inversion F; subst. splits; auto.
  - destruct A as (A1 & A2 & A3). repeat split; auto.
  - destruct B as (A1 & A2 & A3). repeat split; auto.
Qed.

(* ---- one in, one out ---- *)
(* the molar enthalpy is copied across; the energies then agree when the molar flows do *)
Theorem C33_one_in_one_out r um fin fout ins' outs' : is_energy fin = false -> is_energy fout = false ->
  (H_of fin = None <-> H_of fout <> None) -> energy_balance r um [fin] [fout] = Returns true ins' outs' ->
  exists fin' fout', ins' = [fin'] /\ outs' = [fout'] /\ H_of fin' = H_of fout' /\ H_of fin' <> None /\ molar fin' = molar fin /\ molar fout' = molar fout /\
    (fin' = fin \/ fout' = fout) /\
    forall a b, fin' = Args a -> fout' = Args b -> energy a = None -> energy b = None -> molar fin = molar fout -> molar fin <> None -> H_mass a = None -> H_mass b = None ->
      closes energy_flow ins' outs'.
Proof.
  intros A B X E. unfold energy_balance in E. rewrite A, B in E. cbn [orb] in E.
  assert (K : forall s h s', set_H s h = Some s' -> H_of s' = Some h /\ molar s' = molar s).
  { intros s h s' S. destruct s as [| |a]; simpl in S; try discriminate. destruct (_ && _)%bool; inversion S. split; reflexivity. }
  assert (C : forall a b, H_of (Args a) = H_of (Args b) -> H_of (Args a) <> None -> molar (Args a) = molar (Args b) -> molar (Args a) <> None ->
     energy a = None -> energy b = None -> H_mass a = None -> H_mass b = None -> closes energy_flow [Args a] [Args b]).
  { intros a b Hh Hn Mm Mn Ea Eb Ha Hb. unfold closes, all_some, total. 
    assert (F : forall c, energy c = None -> H_mass c = None -> energy_flow (Args c) = match molar (Args c), H_of (Args c) with Some n, Some h => Some (n * h) | _, _ => None end).
    { intros c Ec Hc. unfold energy_flow, enthalpy. rewrite Ec, Hc. simpl H_of. destruct (H c); reflexivity. }
    cbn [map]. rewrite (F a Ea Ha), (F b Eb Hb), <- Hh, <- Mm. destruct (molar (Args a)) as [n|] eqn:Q1; [|congruence]. destruct (H_of (Args a)) as [h|] eqn:Q2; [|congruence].
    splits; auto; intros s [<-|[]]; rewrite ?(F a Ea Ha), ?(F b Eb Hb), <- ?Hh, <- ?Mm, ?Q1, ?Q2; try discriminate. }
  destruct (H_of fin) as [h|] eqn:Hi; destruct (H_of fout) as [h'|] eqn:Ho.
  - destruct X as [_ X]. assert (Some h = None) by (apply X; discriminate). discriminate.
  - unfold bindo in E. destruct (set_H fout h) as [s|] eqn:S; [|discriminate]. inversion E; subst. destruct (K _ _ _ S) as [K1 K2].
    exists fin, s. splits; auto; try congruence. intros a b -> -> Ea Eb Mm Mn Ha Hb. apply C; try congruence.
  - unfold bindo in E. destruct (set_H fin h') as [s|] eqn:S; [|discriminate]. inversion E; subst. destruct (K _ _ _ S) as [K1 K2].
    exists s, fout. splits; auto; try congruence. intros a b -> -> Ea Eb Mm Mn Ha Hb. apply C; try congruence.
  - destruct X as [X _]. elim (X eq_refl). reflexivity.
Qed.

(* an energy stream facing a single other stream takes its energy *)
Theorem C33_energy_stream r um s e : energy_of r s = Some e ->
  energy_balance r um [EnergyStream None] [s] = Returns true [EnergyStream (Some e)] [s] /\
  energy_balance r um [s] [EnergyStream None] = Returns true [s] [EnergyStream (Some e)].
Proof.
  intros E. assert (K : known_sum [Some e] - known_sum [None] = e) by (unfold known_sum, lsum, vals; simpl; lra).
  split; unfold energy_balance; cbn [is_energy orb]; rewrite ?orb_true_r; unfold balance_energies, unknowns, positions; cbn [length seq filter nth map energy_of isSome negb]; rewrite E; cbn [isSome negb filter replace set_energy lset nth]; rewrite K; reflexivity.
Qed.
(* away from the shortcut (two single material streams) the balance is the one of the other theorems *)
Theorem C33_general r um ins outs : (length ins <> 1 \/ length outs <> 1 \/ existsb is_energy (ins ++ outs) = true)%nat ->
  energy_balance r um ins outs = balance_energies r um ins outs.
Proof.
  intros H. unfold energy_balance. destruct ins as [|a [|? ?]]; auto. destruct outs as [|b [|? ?]]; auto. cbn in H. rewrite orb_false_r in H. destruct H as [H|[H|H]]; [congruence..|]. now rewrite H.
Qed.
(* energy with one other state variable and a molar flow fixes the molar enthalpy *)
Theorem C33_enthalpy_from_energy a e n : energy a = Some e -> H a = None -> H_mass a = None -> others a = 1%nat -> n_calc a = Some n -> H_of (Args a) = Some (e / n).
Proof. intros E1 E2 E3 E4 E5. cbn [H_of]. rewrite E2. unfold flashed, state_specified. rewrite E1, E2, E3, E4, E5. reflexivity. Qed.

(* ---- findings ---- *)
Definition sa e h fl oth f := Args (mkargs e h None fl 18 oth f).
(* one in, one out, different molar flows (a reaction that changes the number of moles, say): energy is not conserved *)
Theorem C33_one_in_one_out_refuted : exists r ins outs ins' outs', (forall s, In s ins \/ In s outs -> sound s) /\
  energy_balance r false ins outs = Returns true ins' outs' /\ all_some energy_flow ins' /\ all_some energy_flow outs' /\ total energy_flow ins' <> total energy_flow outs'.
Proof.
  exists false, [sa None None (Some (Molar 2)) 2 100], [sa None None (Some (Molar 1)) 1 0]. eexists. eexists. split; [|split; [reflexivity|]].
  - intros s [[<-|[]]|[<-|[]]]; simpl; lra.
  - splits.
    + intros s [<-|[]]; discriminate.
    + intros s [<-|[]]; discriminate.
    + unfold total, lsum; simpl. lra.
Qed.
(* reactive balance: a stream specified by T, P and a flow is treated as unknown; setting its energy raises *)
Theorem C33_reactive_refuted : exists ins outs, (forall s, In s ins \/ In s outs -> sound s /\ energy_flow s <> None) /\
  energy_balance true false ins outs = Raises.
Proof.
  exists [sa None None (Some (Molar 2)) 2 100; EnergyStream (Some 5)], [EnergyStream (Some 205)]. split; [|reflexivity].
  intros s [[<-|[<-|[]]]|[<-|[]]]; simpl; split; try lra; auto; discriminate.
Qed.
(* two unknowns on one side with the mass balance: the streams of known state are taken to be the unknown ones, so a known
   mass flow is overwritten and one unknown stays *)
Theorem C33_known_mass_refuted : exists ins outs ins' outs', (forall s, In s ins \/ In s outs -> sound s) /\
  energy_balance false true ins outs = Returns true ins' outs' /\
  mass (nth 0 ins edflt) = Some 1 /\ energy_flow (nth 0 ins edflt) <> None /\ mass (nth 0 ins' edflt) <> Some 1 /\ energy_flow (nth 2 ins' edflt) = None.
Proof.
  exists [sa None None (Some (Mass 1)) 2 18; sa None None None 2 36; EnergyStream None], [EquilibriumStream 4000 0 3].
  eexists. eexists. split; [intros s [[<-|[<-|[<-|[]]]]|[<-|[]]]; simpl; lra|]. split.
  - unfold energy_balance, balance_energies, two_unknown. simpl. unfold Reqb. destruct (Req_EM_T _ _); [lra|]. reflexivity.
  - simpl. splits; auto; try discriminate. intros Q. injection Q. unfold known_sum, lsum. simpl. lra.
Qed.

Example C33_hypotheses_met : exists ins outs i k ins' outs', (forall s, In s ins \/ In s outs -> sound s) /\
  unknowns false ins = [i] /\ unknowns false outs = [k] /\ balance_energies false true ins outs = Returns true ins' outs'.
Proof.
  exists [sa None None None 2 18; EnergyStream (Some 10)], [sa None None None 2 36; EquilibriumStream 4000 0 3], 0%nat, 0%nat. eexists. eexists.
  splits; try reflexivity.
  - intros s [[<-|[<-|[]]]|[<-|[<-|[]]]]; simpl; lra.
  - unfold balance_energies. simpl. unfold Reqb. destruct (Req_EM_T _ _); [lra|]. reflexivity.
Qed.
Example C33_single_hypotheses_met : exists ins outs, (length (unknowns false ins) + length (unknowns false outs) = 1)%nat /\
  (forall a, In (Args a) ins \/ In (Args a) outs -> (state_vars false a <= 2)%nat).
Proof.
  exists [sa None None (Some (Molar 2)) 2 100; EnergyStream (Some 5)], [sa None None (Some (Molar 2)) 1 0]. split; [reflexivity|].
  intros a [[E|[E|[]]]|[E|[]]]; inversion E; subst; unfold state_vars, one; simpl; lia.
Qed.
