(* C75: the flash with K values that do not depend on composition, and the entry of the flash with several liquids. *)
From Coq Require Import Reals Lra Lia Arith List Bool.
From Verif Require Import Base BaseFacts Model_kflash Spec_kflash.
Import ListNotations.
Open Scope R_scope.

Lemma inv_tangent k : 0 < k -> 2 - k <= / k.
Proof.
  intros H. assert (0 < / k) by (apply Rinv_0_lt_compat; auto). assert (0 <= (k - 1) * (k - 1) * / k) by (apply Rmult_le_pos; [apply Rle_0_sqr|lra]).
  replace ((k - 1) * (k - 1) * / k) with (k - 2 + / k) in * by (field; lra). lra.
Qed.

Lemma sum_xK n z K VF x y : split_of n z K VF x y -> rsum n (fun i => K i * x i) = 1.
Proof. intros (_ & (_ & Hy) & E). rewrite <- Hy. apply rsum_ext. intros i Hi. symmetry. apply E; auto. Qed.

Lemma dew_sum n z K VF x y : (forall i, (i < n)%nat -> 0 < K i) -> split_of n z K VF x y ->
  rsum n (fun i => z i / K i) = VF - (VF - 1) * rsum n (fun i => x i * / K i) /\ 1 <= rsum n (fun i => x i * / K i).
Proof.
  intros HK H. pose proof (sum_xK _ _ _ _ _ _ H) as S1. destruct H as ((Px & Sx) & _ & E). split.
  - rewrite (rsum_ext n _ (fun i => VF * x i - (VF - 1) * (x i * / K i))).
    + rewrite rsum_minus, !rsum_scal_l, Sx. ring.
    + intros i Hi. destruct (E i Hi) as [E1 E2]. rewrite E2, E1. specialize (HK i Hi). field. lra.
  - apply Rle_trans with (rsum n (fun i => 2 * x i - K i * x i)).
    + rewrite rsum_minus, rsum_scal_l, S1, Sx. lra.
    + apply rsum_le. intros i Hi. pose proof (inv_tangent (K i) (HK i Hi)). pose proof (Px i Hi). nra.
Qed.

Lemma bubble_sum n z K VF x y : split_of n z K VF x y ->
  rsum n (fun i => z i * K i) = 1 - VF + VF * rsum n (fun i => x i * (K i * K i)) /\ 1 <= rsum n (fun i => x i * (K i * K i)).
Proof.
  intros H. pose proof (sum_xK _ _ _ _ _ _ H) as S1. destruct H as ((Px & Sx) & _ & E). split.
  - rewrite (rsum_ext n _ (fun i => (1 - VF) * (K i * x i) + VF * (x i * (K i * K i)))).
    + rewrite rsum_plus, !rsum_scal_l, S1. ring.
    + intros i Hi. destruct (E i Hi) as [E1 E2]. rewrite E2, E1. ring.
  - apply Rle_trans with (rsum n (fun i => 2 * (K i * x i) - x i)).
    + rewrite rsum_minus, rsum_scal_l, S1, Sx. lra.
    + apply rsum_le. intros i Hi. pose proof (Px i Hi). pose proof (Rle_0_sqr (K i - 1)) as Q. unfold Rsqr in Q. pose proof (Rmult_le_pos _ _ (Px i Hi) Q). lra.
Qed.

Lemma K_flags_spec n z K : 
  (fst (K_flags n z K) = true <-> exists i, (i < n)%nat /\ z i <> 0 /\ K i <= 1) /\
  (snd (K_flags n z K) = true <-> exists i, (i < n)%nat /\ z i <> 0 /\ 1 < K i).
Proof.
  induction n as [|n [IH1 IH2]]; simpl.
  - split; (split; [discriminate|intros (i & H & _); lia]).
  - destruct (K_flags n z K) as [low high]. simpl in IH1, IH2.
    assert (X : forall Q : nat -> Prop, (exists i, (i < S n)%nat /\ z i <> 0 /\ Q i) <-> (exists i, (i < n)%nat /\ z i <> 0 /\ Q i) \/ (z n <> 0 /\ Q n)).
    { intros Q. split.
      - intros (i & H1 & H2 & H3). destruct (Nat.eq_dec i n) as [->|]; [right; auto|left; exists i; repeat split; auto; lia].
      - intros [(i & H1 & H2)|H]; [exists i; split; [lia|auto]|exists n; split; [lia|auto]]. }
    rewrite !X. unfold Reqb. destruct (Req_EM_T (z n) 0) as [Z|Z]; simpl.
    + split; rewrite ?IH1, ?IH2; tauto.
    + destruct (Rltb_spec 1 (K n)) as [L|L]; simpl; split; rewrite ?IH1, ?IH2.
      * split; [tauto|intros [H|[_ H]]; [auto|lra]].
      * tauto.
      * split; [intros _; right; split; [auto|lra]|auto].
      * split; [tauto|intros [H|[_ H]]; [auto|contradiction]].
Qed.

Section KFlash.
Variables (Phase : Type) (to : Phase -> R -> R -> (nat -> R) -> Phase) (phis_at : Phase -> R -> R -> (nat -> R) -> nat -> R).
Variables (n max_phases : nat) (phase0 gas liquid0 : Phase) (inner : (nat -> R) -> (nat -> R) -> option (R * (nat -> R) * (nat -> R))) (T P : R) (z : nat -> R).
Let K := phis_at liquid0 T P z.

(* what is assumed of flash_inner_loop: the split it returns satisfies the equations, with all mole fractions positive or zero *)
Hypothesis inner_ok : forall VF x y, inner z K = Some (VF, x, y) -> split_of n z K VF x y.
Hypotheses (z_ok : composition n z) (K_ok : forall i, (i < n)%nat -> 0 < K i).

Let run := flash_TP_K Phase to phis_at n max_phases phase0 gas liquid0 inner T P z.

Lemma all_low : fst (K_flags n z K) = true -> snd (K_flags n z K) = false -> liquid_stable n z K.
Proof.
  intros _ H. unfold liquid_stable. destruct z_ok as [Pz <-]. apply rsum_le. intros i Hi.
  destruct (Req_dec (z i) 0) as [->|Z]; [lra|].
  assert (K i <= 1); [|pose proof (Pz i Hi); nra].
  destruct (Rle_lt_dec (K i) 1); auto. exfalso. assert (snd (K_flags n z K) = true) by (apply K_flags_spec; exists i; auto). congruence.
Qed.
Lemma all_high : snd (K_flags n z K) = true -> fst (K_flags n z K) = false -> gas_stable n z K.
Proof.
  intros _ H. unfold gas_stable. destruct z_ok as [Pz <-]. apply rsum_le. intros i Hi.
  destruct (Req_dec (z i) 0) as [->|Z]; [unfold Rdiv; lra|].
  assert (1 < K i).
  { destruct (Rlt_le_dec 1 (K i)); auto. exfalso. assert (fst (K_flags n z K) = true) by (apply K_flags_spec; exists i; auto). congruence. }
  unfold Rdiv. pose proof (Pz i Hi). assert (/ K i <= 1) by (rewrite <- Rinv_1; apply Rinv_le_contravar; lra). nra.
Qed.

(* with both phases possible: a gas or a liquid of the feed where it is stable, or else two phases in equilibrium, each in its place *)
Theorem C75_K_flash : max_phases <> 1%nat ->
  (run = Found None [to gas T P z] [1] /\ gas_stable n z K) \/
  (run = Found None [to liquid0 T P z] [1] /\ liquid_stable n z K) \/
  (exists VF x y, run = Found (Some (to gas T P y)) [to liquid0 T P x] [VF; 1 - VF] /\ 0 <= VF <= 1 /\ split_of n z K VF x y) \/
  (run = ValueErr /\ inner z K = None /\ exists i j, (i < n)%nat /\ (j < n)%nat /\ z i <> 0 /\ z j <> 0 /\ K i <= 1 < K j).
Proof.
  intros Hm. unfold run, flash_TP_K. rewrite (proj2 (Nat.eqb_neq _ _) Hm). fold K.
  destruct (inner z K) as [[[VF x] y]|] eqn:E.
  - pose proof (inner_ok _ _ _ eq_refl) as S. destruct (Rltb_spec 1 VF) as [L|L].
    + left. split; [reflexivity|]. unfold gas_stable. destruct (dew_sum n z K VF x y K_ok S) as [-> Q]. nra.
    + destruct (Rltb_spec VF 0) as [L'|L'].
      * right; left. split; [reflexivity|]. unfold liquid_stable. destruct (bubble_sum n z K VF x y S) as [-> Q]. nra.
      * right; right; left. exists VF, x, y. split; [reflexivity|split; [lra|exact S]].
  - pose proof all_low as AL. pose proof all_high as AH. pose proof (K_flags_spec n z K) as [F1 F2].
    destruct (K_flags n z K) as [low high]. simpl in *. destruct low, high; simpl.
    + right; right; right. split; [reflexivity|split; [reflexivity|]].
      destruct (proj1 F1 eq_refl) as (i & I1 & I2 & I3). destruct (proj1 F2 eq_refl) as (j & J1 & J2 & J3). exists i, j. repeat split; auto.
    + right; left. rewrite (Rltb_false 1 (- (1 / 2))), (Rltb_true (- (1 / 2)) 0) by lra. split; [reflexivity|apply AL; reflexivity].
    + left. rewrite (Rltb_true 1 (3 / 2)) by lra. split; [reflexivity|apply AH; reflexivity].
    + exfalso. destruct z_ok as [Pz Sz]. assert (rsum n z = 0); [|lra]. apply rsum_eq_0. intros i Hi.
      destruct (Req_dec (z i) 0); auto. destruct (Rle_lt_dec (K i) 1).
      * assert (false = true) by (apply F1; exists i; auto). discriminate.
      * assert (false = true) by (apply F2; exists i; auto). discriminate.
Qed.

(* the number of phases is the one the bubble and dew criteria demand *)
Theorem C75_phase_count : max_phases <> 1%nat -> run <> ValueErr ->
  (rsum n (fun i => z i * K i) < 1 -> run = Found None [to liquid0 T P z] [1]) /\
  (rsum n (fun i => z i / K i) < 1 -> run = Found None [to gas T P z] [1]) /\
  (1 < rsum n (fun i => z i * K i) -> 1 < rsum n (fun i => z i / K i) ->
     exists VF x y, run = Found (Some (to gas T P y)) [to liquid0 T P x] [VF; 1 - VF] /\ 0 <= VF <= 1 /\ split_of n z K VF x y).
Proof.
  intros Hm Hv.
  assert (B : 2 <= rsum n (fun i => z i * K i) + rsum n (fun i => z i / K i)).
  { rewrite <- rsum_plus. destruct z_ok as [Pz Sz]. replace 2 with (rsum n (fun i => 2 * z i)) by (rewrite rsum_scal_l, Sz; ring).
    apply rsum_le. intros i Hi. pose proof (inv_tangent (K i) (K_ok i Hi)). pose proof (Pz i Hi). unfold Rdiv. nra. }
  destruct (C75_K_flash Hm) as [[E G]|[[E L]|[(VF & x & y & E & R & S)|(E & _)]]].
  - unfold gas_stable in G. split; [intros; lra|split; [auto|intros; lra]].
  - unfold liquid_stable in L. split; [auto|split; [intros; lra|intros; lra]].
  - destruct (dew_sum n z K VF x y K_ok S) as [D1 D2]. destruct (bubble_sum n z K VF x y S) as [B1 B2].
    split; [intros H; exfalso; nra|split; [intros H; exfalso; nra|]]. intros _ _. exists VF, x, y. auto.
  - contradiction.
Qed.

(* with one phase possible the feed is that phase *)
Theorem C75_one_phase : max_phases = 1%nat -> run = Found None [to phase0 T P z] [1].
Proof. intros ->. reflexivity. Qed.
End KFlash.

Section PhasesAt.
Variables (Phase : Type) (to : Phase -> R -> R -> (nat -> R) -> Phase).

Lemma assign_length i l idxs cur : List.length (assign Phase i l idxs cur) = List.length cur.
Proof. revert cur. induction idxs as [|a r IH]; intros [|c q]; simpl; auto. Qed.
Lemma assign_nth i l idxs cur j k : nth_error idxs j = Some k -> (j < List.length cur)%nat ->
  nth_error (assign Phase i l idxs cur) j = if Nat.eqb k i then Some (Some l) else nth_error cur j.
Proof.
  revert cur j. induction idxs as [|a r IH]; intros [|c q] [|j]; simpl; intros H L; try discriminate; try lia.
  - injection H. intros ->. destruct (Nat.eqb k i); reflexivity.
  - apply IH; auto; lia.
Qed.
Lemma assign_all_nth unique T P z idxs : forall i cur j k, nth_error idxs j = Some k -> (j < List.length cur)%nat ->
  nth_error (assign_all Phase to i unique T P z idxs cur) j =
  if Nat.leb i k then match nth_error unique (k - i) with Some u => Some (Some (to u T P z)) | None => nth_error cur j end else nth_error cur j.
Proof.
  induction unique as [|u r IH]; intros i cur j k H L; simpl.
  - destruct (Nat.leb i k); [destruct (k - i)%nat|]; reflexivity.
  - rewrite (IH (S i) _ j k H) by (rewrite assign_length; auto). rewrite (assign_nth _ _ _ _ _ _ H L).
    destruct (Nat.leb_spec (S i) k) as [Q|Q].
    + rewrite (proj2 (Nat.leb_le i k)) by lia. replace (k - i)%nat with (S (k - S i)) by lia. simpl.
      rewrite (proj2 (Nat.eqb_neq k i)) by lia. reflexivity.
    + destruct (Nat.eqb_spec k i) as [->|N].
      * rewrite Nat.leb_refl, Nat.sub_diag. reflexivity.
      * rewrite (proj2 (Nat.leb_gt i k)) by lia. reflexivity.
Qed.

Lemma nth_ext {A : Type} (a b : list A) : (forall j, nth_error a j = nth_error b j) -> a = b.
Proof.
  revert b. induction a as [|x a IH]; intros [|y b] H; [reflexivity|discriminate (H 0%nat)|discriminate (H 0%nat)|].
  f_equal; [injection (H 0%nat); auto|]. apply IH. intros j. apply (H (S j)).
Qed.

(* each liquid is its own model at the conditions, when the table sends it to a unique liquid with the same model *)
Theorem C75_phases_at gas (liquids unique : list Phase) (idxs : list nat) T P z :
  List.length idxs = List.length liquids ->
  (forall j l, nth_error liquids j = Some l -> exists k u, nth_error idxs j = Some k /\ nth_error unique k = Some u /\ to u T P z = to l T P z) ->
  phases_at Phase to gas unique idxs (List.length liquids) T P z =
  (to gas T P z, map (fun l => Some (to l T P z)) liquids, map (fun l => Some (to l T P z)) (gas :: liquids)).
Proof.
  intros Hl H. unfold phases_at.
  assert (E : assign_all Phase to 0 unique T P z idxs (repeat None (List.length liquids)) = map (fun l => Some (to l T P z)) liquids); [|rewrite E; reflexivity].
  assert (Len : forall u i c, List.length (assign_all Phase to i u T P z idxs c) = List.length c).
  { induction u as [|a r IH]; intros i c; simpl; [reflexivity|]. rewrite IH, assign_length. reflexivity. }
  apply nth_ext. intros j. rewrite nth_error_map. destruct (nth_error liquids j) as [l|] eqn:J; simpl.
  - destruct (H j l J) as (k & u & H1 & H2 & H3). rewrite (assign_all_nth unique T P z idxs 0 _ j k H1).
    + simpl. rewrite Nat.sub_0_r, H2, H3. reflexivity.
    + rewrite repeat_length. apply nth_error_Some. congruence.
  - apply nth_error_None. rewrite Len, repeat_length. apply nth_error_None. exact J.
Qed.
End PhasesAt.

(* the answer of a flash at T and P is that of the start from known phases or the one without it, and the start never makes a flash fail *)
Theorem C75_hot_start (res : Type) (t p : R) hot solution Kind hack (PV TV : option res) two many Kf general :
  let run h := flash_TPV res (Some t) (Some p) h solution Kind hack PV TV two many Kf general in
  (run None = if Kind && hack && negb solution then Kf else general) /\
  (solution = true -> run hot = run None) /\
  ((forall c, hot = Some c -> (c <= 1)%nat) -> run hot = run None) /\
  (run hot = run None \/ (hot = Some 2%nat /\ exists e0 e1 r, two = Some (e0, e1, r) /\ (e0 = false \/ e1 = false) /\ run hot = Some r) \/
    (exists c r, hot = Some c /\ (2 < c)%nat /\ many = Some r /\ run hot = Some r)) /\
  (run None <> None -> run hot <> None).
Proof.
  intros run. assert (Z : run None = if Kind && hack && negb solution then Kf else general) by reflexivity.
  assert (C : run hot = run None \/ (hot = Some 2%nat /\ exists e0 e1 r, two = Some (e0, e1, r) /\ (e0 = false \/ e1 = false) /\ run hot = Some r) \/
    (exists c r, hot = Some c /\ (2 < c)%nat /\ many = Some r /\ run hot = Some r)).
  { destruct hot as [c|]; [|left; reflexivity]. unfold run, flash_TPV, flash_TPV_hot.
    set (cold := if Kind && hack && negb solution then Kf else general).
    destruct (Nat.ltb 1 c && negb solution); [|left; reflexivity].
    destruct (Nat.eqb_spec c 2) as [->|N].
    - destruct two as [[[e0 e1] r]|]; [|left; reflexivity]. destruct e0, e1; simpl;
        [left; destruct cold; reflexivity|right; left; split; [reflexivity|]; eexists; eexists; exists r; repeat split; auto..].
    - destruct (Nat.ltb_spec 2 c); [|left; reflexivity]. destruct many as [r|]; [|left; reflexivity].
      right; right. exists c, r. auto. }
  split; [exact Z|]. split; [|split; [|split; [exact C|]]].
  - intros ->. unfold run, flash_TPV. destruct hot; [rewrite !andb_false_r|]; reflexivity.
  - intros H. unfold run, flash_TPV. destruct hot as [c|]; [|reflexivity]. specialize (H c eq_refl).
    rewrite (proj2 (Nat.ltb_ge 1 c)) by lia. reflexivity.
  - intros H. destruct C as [->|[(_ & e0 & e1 & r & _ & _ & ->)|(c & r & _ & _ & _ & ->)]]; [exact H|discriminate|discriminate].
Qed.

(* a feed of two components with equal parts, K values 2 and 1/2: half of it is gas *)
Example C75_hypotheses_met : exists (n : nat) (z K : nat -> R) VF x y, composition n z /\ (forall i, (i < n)%nat -> 0 < K i) /\ split_of n z K VF x y /\
  1 < rsum n (fun i => z i * K i) /\ 1 < rsum n (fun i => z i / K i).
Proof.
  exists 2%nat, (fun _ => 1 / 2), (fun i => match i with O => 2 | _ => 1 / 2 end), (1 / 2), (fun i => match i with O => 1 / 3 | _ => 2 / 3 end), (fun i => match i with O => 2 / 3 | _ => 1 / 3 end).
  unfold split_of, composition. simpl.
  assert (L : forall i : nat, (i < 2)%nat -> i = 0%nat \/ i = 1%nat) by (intros; lia).
  repeat split; try lra; try (intros i Hi; destruct (L i Hi) as [-> | ->]; lra).
  all: destruct (L i H) as [-> | ->]; lra.
Qed.

(* started from a result with one phase, flash_TPV_hot fails whatever the flashes would give; flash_TPV never does so *)
Theorem C75_hot_one_phase_refuted (res : Type) (c : nat) two (many cold : option res) : (c <= 1)%nat -> flash_TPV_hot res c two many cold = None.
Proof.
  intros H. unfold flash_TPV_hot. rewrite (proj2 (Nat.eqb_neq c 2)) by lia. rewrite (proj2 (Nat.ltb_ge 2 c)) by lia. reflexivity.
Qed.
