(* C74: standard entropies and standard state formation properties. *)
From Coq Require Import Reals Lra Lia Arith List String Bool.
From Coquelicot Require Import Coquelicot.
From Verif Require Import Base BaseFacts Model_formation Spec_formation.
Import ListNotations.
Open Scope R_scope.

Lemma smooth_over_T Cp : smooth_Cp Cp -> smooth_Cp (fun T => Cp T / T).
Proof.
  intros H T HT. apply (continuous_mult Cp (fun t => / t)); [apply H; auto|]. apply continuous_Rinv_comp; [apply continuous_id|lra].
Qed.

Lemma smooth_ex f a b : smooth_Cp f -> 0 < a -> 0 < b -> ex_RInt f a b.
Proof.
  intros H Ha Hb. apply (ex_RInt_continuous (V := R_CompleteNormedModule)). intros z Hz. apply H.
  destruct Hz as [Hz _]. eapply Rlt_le_trans; [|exact Hz]. apply Rmin_glb_lt; auto.
Qed.

Lemma locally_pos T : 0 < T -> locally T (fun t => 0 < t).
Proof. intros H. apply (open_gt 0 T H). Qed.

Lemma RInt_smooth_derive f a T : smooth_Cp f -> 0 < a -> 0 < T -> is_derive (fun t => RInt f a t) T (f T).
Proof.
  intros H Ha HT. apply (is_derive_RInt f _ a T).
  - generalize (locally_pos T HT). apply filter_imp. intros t Ht. apply (RInt_correct (V := R_CompleteNormedModule)). apply smooth_ex; auto.
  - apply H; auto.
Qed.

Lemma int_T_derive Cp a T : smooth_Cp Cp -> 0 < a -> 0 < T -> is_derive (int_T Cp a) T (Cp T).
Proof. intros. apply RInt_smooth_derive; auto. Qed.
Lemma int_over_T_derive Cp a T : smooth_Cp Cp -> 0 < a -> 0 < T -> is_derive (int_over_T Cp a) T (Cp T / T).
Proof. intros H Ha HT. apply (RInt_smooth_derive (fun t => Cp t / t)); auto. apply smooth_over_T; auto. Qed.

Lemma derive_continuous (f : R -> R) T l : is_derive f T l -> continuous f T.
Proof. intros H. apply (ex_derive_continuous (K := R_AbsRing) (V := R_NormedModule)). exists l. exact H. Qed.
Lemma int_T_cont Cp a T : smooth_Cp Cp -> 0 < a -> 0 < T -> continuous (int_T Cp a) T.
Proof. intros. eapply derive_continuous. apply int_T_derive; auto. Qed.
Lemma int_over_T_cont Cp a T : smooth_Cp Cp -> 0 < a -> 0 < T -> continuous (int_over_T Cp a) T.
Proof. intros. eapply derive_continuous. apply int_over_T_derive; auto. Qed.

Lemma int_T_point Cp a : int_T Cp a a = 0.
Proof. unfold int_T. rewrite RInt_point. reflexivity. Qed.
Lemma int_over_T_point Cp a : int_over_T Cp a a = 0.
Proof. unfold int_over_T. rewrite RInt_point. reflexivity. Qed.

Lemma cont_Rmin b T : continuous (fun t => Rmin t b) T.
Proof.
  apply (continuous_ext (fun t => (t + b + - Rabs (t - b)) * / 2)).
  { intros t. unfold Rmin. destruct (Rle_dec t b); [rewrite Rabs_left1 by lra|rewrite Rabs_right by lra]; lra. }
  apply (continuous_mult (fun t => t + b + - Rabs (t - b)) (fun _ => / 2)); [|apply continuous_const].
  apply (continuous_plus (fun t => t + b) (fun t => - Rabs (t - b))).
  - apply (continuous_plus (fun t => t) (fun _ => b)); [apply continuous_id|apply continuous_const].
  - apply (continuous_opp (fun t => Rabs (t - b))). apply continuous_Rabs_comp.
    apply (continuous_minus (fun t => t) (fun _ => b)); [apply continuous_id|apply continuous_const].
Qed.
Lemma cont_Rmax b T : continuous (fun t => Rmax t b) T.
Proof.
  apply (continuous_ext (fun t => (t + b + Rabs (t - b)) * / 2)).
  { intros t. unfold Rmax. destruct (Rle_dec t b); [rewrite Rabs_left1 by lra|rewrite Rabs_right by lra]; lra. }
  apply (continuous_mult (fun t => t + b + Rabs (t - b)) (fun _ => / 2)); [|apply continuous_const].
  apply (continuous_plus (fun t => t + b) (fun t => Rabs (t - b))).
  - apply (continuous_plus (fun t => t) (fun _ => b)); [apply continuous_id|apply continuous_const].
  - apply continuous_Rabs_comp.
    apply (continuous_minus (fun t => t) (fun _ => b)); [apply continuous_id|apply continuous_const].
Qed.

Lemma c_plus (f g : R -> R) T : continuous f T -> continuous g T -> continuous (fun t => f t + g t) T.
Proof. intros. apply (continuous_plus f g); auto. Qed.
Lemma c_minus (f g : R -> R) T : continuous f T -> continuous g T -> continuous (fun t => f t - g t) T.
Proof. intros. apply (continuous_minus f g); auto. Qed.
Lemma c_mult (f g : R -> R) T : continuous f T -> continuous g T -> continuous (fun t => f t * g t) T.
Proof. intros. apply (continuous_mult f g); auto. Qed.
Lemma c_comp (f g : R -> R) T : continuous f T -> continuous g (f T) -> continuous (fun t => g (f t)) T.
Proof. intros. apply (continuous_comp f g); auto. Qed.
Lemma c_const (a : R) T : continuous (fun _ : R => a) T.
Proof. apply continuous_const. Qed.
Lemma c_id T : continuous (fun t : R => t) T.
Proof. apply continuous_id. Qed.

Lemma d_shift (c : R) (f : R -> R) T l : is_derive f T l -> is_derive (fun t => c + f t) T l.
Proof. intros H. replace l with (0 + l) by ring. apply (is_derive_plus (K := R_AbsRing) (V := R_NormedModule) (fun _ => c) f T 0 l); [apply (is_derive_const (K := R_AbsRing) (V := R_NormedModule))|exact H]. Qed.

Ltac rring := match goal with |- @eq _ ?a ?b => change (@eq R a b) end; ring.

(* heating with two changes of phase; pre-transition at Tab of heat Hab is possible below *)
Section Heating.
Variables (Cs Cl Cg : R -> R) (Tref Tm Tb Hf Hv : R).
Hypotheses (Ss : smooth_Cp Cs) (Sl : smooth_Cp Cl) (Sg : smooth_Cp Cg) (Pref : 0 < Tref) (Pm : 0 < Tm) (Pb : Tm < Tb).

Definition hH (t : R) := int_T Cs Tref (Rmin t Tm) + (if Rltb Tm t then Hf + int_T Cl Tm (Rmin t Tb) else 0) + (if Rltb Tb t then Hv + int_T Cg Tb t else 0).
Definition hS (t : R) := int_over_T Cs Tref (Rmin t Tm) + (if Rltb Tm t then Hf / Tm + int_over_T Cl Tm (Rmin t Tb) else 0)
  + (if Rltb Tb t then Hv / Tb + int_over_T Cg Tb t else 0).

Lemma h_derive T Cp : 0 < T -> (T < Tm /\ Cp = Cs) \/ (Tm < T < Tb /\ Cp = Cl) \/ (Tb < T /\ Cp = Cg) ->
  is_derive hH T (Cp T) /\ is_derive hS T (Cp T / T).
Proof.
  intros HT [[H ->]|[[[H1 H2] ->]|[H ->]]].
  - assert (L : locally T (fun t => t < Tm)) by (apply (open_lt Tm T H)). split.
    + apply (is_derive_ext_loc (int_T Cs Tref)); [|apply int_T_derive; auto].
      revert L; apply filter_imp; intros t Ht. unfold hH. rewrite Rmin_left, !Rltb_false by lra. rring.
    + apply (is_derive_ext_loc (int_over_T Cs Tref)); [|apply int_over_T_derive; auto].
      revert L; apply filter_imp; intros t Ht. unfold hS. rewrite Rmin_left, !Rltb_false by lra. rring.
  - assert (L : locally T (fun t => Tm < t /\ t < Tb)) by (apply filter_and; [apply (open_gt Tm T H1)|apply (open_lt Tb T H2)]). split.
    + apply (is_derive_ext_loc (fun t => (int_T Cs Tref Tm + Hf) + int_T Cl Tm t)).
      * revert L; apply filter_imp; intros t [Ht1 Ht2]. unfold hH. rewrite (Rmin_right t Tm), (Rmin_left t Tb), (Rltb_true Tm t), (Rltb_false Tb t) by lra. unfold plus; simpl. rring.
      * apply d_shift; apply int_T_derive; auto.
    + apply (is_derive_ext_loc (fun t => (int_over_T Cs Tref Tm + Hf / Tm) + int_over_T Cl Tm t)).
      * revert L; apply filter_imp; intros t [Ht1 Ht2]. unfold hS. rewrite (Rmin_right t Tm), (Rmin_left t Tb), (Rltb_true Tm t), (Rltb_false Tb t) by lra. unfold plus; simpl. rring.
      * apply d_shift; apply int_over_T_derive; auto.
  - assert (L : locally T (fun t => Tb < t)) by (apply (open_gt Tb T H)). split.
    + apply (is_derive_ext_loc (fun t => (int_T Cs Tref Tm + (Hf + int_T Cl Tm Tb) + Hv) + int_T Cg Tb t)).
      * revert L; apply filter_imp; intros t Ht. unfold hH. rewrite (Rmin_right t Tm), (Rmin_right t Tb), (Rltb_true Tm t), (Rltb_true Tb t) by lra. unfold plus; simpl. rring.
      * apply d_shift; apply int_T_derive; auto; lra.
    + apply (is_derive_ext_loc (fun t => (int_over_T Cs Tref Tm + (Hf / Tm + int_over_T Cl Tm Tb) + Hv / Tb) + int_over_T Cg Tb t)).
      * revert L; apply filter_imp; intros t Ht. unfold hS. rewrite (Rmin_right t Tm), (Rmin_right t Tb), (Rltb_true Tm t), (Rltb_true Tb t) by lra. unfold plus; simpl. rring.
      * apply d_shift; apply int_over_T_derive; auto; lra.
Qed.

Lemma h_gibbs_cont T : 0 < T -> continuous (fun t => hH t - t * hS t) T.
Proof.
  intros HT.
  pose (A := fun t => int_T Cs Tref (Rmin t Tm) - t * int_over_T Cs Tref (Rmin t Tm)).
  pose (B := fun t => (Hf + int_T Cl Tm (Rmin t Tb)) - t * (Hf / Tm + int_over_T Cl Tm (Rmin t Tb))).
  pose (C := fun t => (Hv + int_T Cg Tb t) - t * (Hv / Tb + int_over_T Cg Tb t)).
  apply (continuous_ext (fun t => A t + B (Rmax t Tm) + C (Rmax t Tb))).
  { intros t. unfold hH, hS.
    assert (EB : B (Rmax t Tm) = (if Rltb Tm t then Hf + int_T Cl Tm (Rmin t Tb) else 0) - t * (if Rltb Tm t then Hf / Tm + int_over_T Cl Tm (Rmin t Tb) else 0)).
    { unfold B. destruct (Rltb_spec Tm t).
      - rewrite Rmax_left by lra. reflexivity.
      - rewrite Rmax_right by lra. rewrite Rmin_left by lra. rewrite int_T_point, int_over_T_point. field. lra. }
    assert (EC : C (Rmax t Tb) = (if Rltb Tb t then Hv + int_T Cg Tb t else 0) - t * (if Rltb Tb t then Hv / Tb + int_over_T Cg Tb t else 0)).
    { unfold C. destruct (Rltb_spec Tb t).
      - rewrite Rmax_left by lra. reflexivity.
      - rewrite Rmax_right by lra. rewrite int_T_point, int_over_T_point. field. lra. }
    rewrite EB, EC. unfold A. rring. }
  assert (M1 : forall t, 0 < t -> continuous A t).
  { intros t Ht. assert (0 < Rmin t Tm) by (apply Rmin_glb_lt; auto). unfold A. apply c_minus; [|apply c_mult; [apply c_id|]];
    [apply (c_comp (fun t => Rmin t Tm) (int_T Cs Tref)); [apply cont_Rmin|apply int_T_cont; auto]
    |apply (c_comp (fun t => Rmin t Tm) (int_over_T Cs Tref)); [apply cont_Rmin|apply int_over_T_cont; auto]]. }
  assert (M2 : forall t, 0 < t -> continuous B t).
  { intros t Ht. assert (0 < Rmin t Tb) by (apply Rmin_glb_lt; lra). unfold B.
    apply c_minus; [apply c_plus; [apply c_const|]|apply c_mult; [apply c_id|apply c_plus; [apply c_const|]]];
    [apply (c_comp (fun t => Rmin t Tb) (int_T Cl Tm)); [apply cont_Rmin|apply int_T_cont; auto]
    |apply (c_comp (fun t => Rmin t Tb) (int_over_T Cl Tm)); [apply cont_Rmin|apply int_over_T_cont; auto]]. }
  assert (M3 : forall t, 0 < t -> continuous C t).
  { intros t Ht. assert (0 < Tb) by lra. unfold C. apply c_minus; [apply c_plus; [apply c_const|]|apply c_mult; [apply c_id|apply c_plus; [apply c_const|]]];
    [apply int_T_cont; auto|apply int_over_T_cont; auto]. }
  apply c_plus; [apply c_plus|].
  - apply M1; auto.
  - apply (c_comp (fun t => Rmax t Tm) B); [apply cont_Rmax|]. apply M2. eapply Rlt_le_trans; [exact HT|apply Rmax_l].
  - apply (c_comp (fun t => Rmax t Tb) C); [apply cont_Rmax|]. apply M3. eapply Rlt_le_trans; [exact HT|apply Rmax_l].
Qed.

Lemma h_ref : Tref <= Tm -> hH Tref = 0 /\ hS Tref = 0.
Proof.
  intros H. unfold hH, hS. rewrite Rmin_left, !Rltb_false, int_T_point, int_over_T_point by lra. split; ring.
Qed.
End Heating.

Lemma melting_is_h D e Tm Tb Hf Hv Tr T : melting_deltas D e Tm Tb Hf Hv Tr T =
  (hH (solid_Cp D e) (liquid_Cp D e) (gas_Cp D e) Tr Tm Tb Hf Hv T, hS (solid_Cp D e) (liquid_Cp D e) (gas_Cp D e) Tr Tm Tb Hf Hv T).
Proof. unfold melting_deltas, hH, hS. destruct (Rltb Tm T), (Rltb Tb T); f_equal; ring. Qed.

(* phosphorus: the same path, with a transition of the solid at 195.4 K *)
Definition pH (D : element_data) (Tr t : R) := hH (solid_Cp D "P") (liquid_Cp D "P") (gas_Cp D "P") Tr 317.3 1180.008 659 63728 t + (if Rltb t 195.4 then - 521 else 0).
Definition pS (D : element_data) (Tr t : R) := hS (solid_Cp D "P") (liquid_Cp D "P") (gas_Cp D "P") Tr 317.3 1180.008 659 63728 t + (if Rltb t 195.4 then - (521 / 195.4) else 0).
Lemma phosphorus_is_p D Tr T : phosphorus_deltas D "P" Tr T = (pH D Tr T, pS D Tr T).
Proof.
  unfold phosphorus_deltas, pH, pS, hH, hS. destruct (Rltb_spec T 195.4).
  - rewrite !Rltb_false by lra. rewrite !(Rmin_left T 317.3) by lra. f_equal; ring.
  - destruct (Rltb 317.3 T), (Rltb 1180.008 T); f_equal; ring.
Qed.

Definition smooth_data (D : element_data) : Prop := forall e, smooth_Cp (solid_Cp D e) /\ smooth_Cp (liquid_Cp D e) /\ smooth_Cp (gas_Cp D e).

(* what the proof needs of the heat of an element as a function of temperature *)
Definition good_element (D : element_data) (e : string) (Tr : R) (h s : R -> R) : Prop :=
  (forall t, element_deltas D e Tr t = Some (h t, s t)) /\
  (forall T Cp, 0 < T -> stable_Cp (solid_Cp D) (liquid_Cp D) (gas_Cp D) e T Cp -> is_derive h T (Cp T) /\ is_derive s T (Cp T / T)) /\
  (forall T, 0 < T -> continuous (fun t => h t - t * s t) T) /\
  ((forall Tm Tb, melting_boiling e Tm Tb -> Tr <= Tm) -> (e = "P"%string -> 195.4 <= Tr) -> h Tr = 0 /\ s Tr = 0).

Lemma good_single (Cp : R -> R) Tr : smooth_Cp Cp -> 0 < Tr ->
  (forall T, 0 < T -> is_derive (int_T Cp Tr) T (Cp T) /\ is_derive (int_over_T Cp Tr) T (Cp T / T)) /\
  (forall T, 0 < T -> continuous (fun t => int_T Cp Tr t - t * int_over_T Cp Tr t) T) /\ int_T Cp Tr Tr = 0 /\ int_over_T Cp Tr Tr = 0.
Proof.
  intros H Hr. splits.
  - intros T HT. split; [apply int_T_derive|apply int_over_T_derive]; auto.
  - intros T HT. apply c_minus; [apply int_T_cont; auto|apply c_mult; [apply c_id|apply int_over_T_cont; auto]].
  - apply int_T_point.
  - apply int_over_T_point.
Qed.

Lemma melting_fun e Tm Tb Tm' Tb' : melting_boiling e Tm Tb -> melting_boiling e Tm' Tb' -> Tm = Tm' /\ Tb = Tb'.
Proof.
  unfold melting_boiling. simpl. intros H1 H2.
  repeat (destruct H1 as [H1|H1]; [injection H1; clear H1; intros; subst; repeat (destruct H2 as [H2|H2]; [injection H2; clear H2; intros; subst; first [discriminate | split; reflexivity]|]); contradiction|]).
  contradiction.
Qed.

Lemma melting_not_other e Tm Tb : melting_boiling e Tm Tb -> e <> "C"%string /\ ~ always_gas e.
Proof.
  unfold melting_boiling, always_gas. simpl. intros H1.
  repeat (destruct H1 as [H1|H1]; [injection H1; clear H1; intros; subst; split; [discriminate|intuition discriminate]|]). contradiction.
Qed.

Lemma good_known D e Tr : smooth_data D -> 0 < Tr -> known_element e -> exists h s, good_element D e Tr h s.
Proof.
  intros HD Hr K. destruct (HD e) as (Hs & Hl & Hg).
  destruct K as [->|[K|(Tm & Tb & K)]].
  - destruct (good_single (solid_Cp D "C") Tr Hs Hr) as (A & B & C). exists (int_T (solid_Cp D "C") Tr), (int_over_T (solid_Cp D "C") Tr). unfold good_element. splits.
    + intros t. reflexivity.
    + intros T Cp HT [(_ & ->)|[(F & _)|(a & b & F & _)]]; [apply A; auto| |].
      * unfold always_gas in F; simpl in F; intuition discriminate.
      * destruct (melting_not_other _ _ _ F) as [F1 _]. congruence.
    + exact B.
    + intros _ _. exact C.
  - destruct (good_single (gas_Cp D e) Tr Hg Hr) as (A & B & C). exists (int_T (gas_Cp D e) Tr), (int_over_T (gas_Cp D e) Tr). unfold good_element. splits.
    + intros t. unfold always_gas in K. simpl in K. destruct K as [<-|[<-|[<-|[<-|[<-|[]]]]]]; reflexivity.
    + intros T Cp HT [(F & _)|[(_ & ->)|(a & b & F & _)]]; [|apply A; auto|].
      * subst e. unfold always_gas in K; simpl in K; intuition discriminate.
      * destruct (melting_not_other _ _ _ F) as [_ F1]. contradiction.
    + exact B.
    + intros _ _. exact C.
  - assert (N := melting_not_other _ _ _ K). assert (U := fun a b => melting_fun e Tm Tb a b K).
    destruct (string_dec e "P") as [->|NP].
    + assert (ET : Tm = 317.3 /\ Tb = 1180.008) by (destruct (U 317.3 1180.008) as [-> ->]; [unfold melting_boiling; simpl; tauto|split; reflexivity]).
      destruct ET as [-> ->].
      exists (pH D Tr), (pS D Tr). unfold good_element. splits.
      * intros t. unfold element_deltas. simpl. rewrite phosphorus_is_p. reflexivity.
      * intros T Cp HT [(F & _)|[(F & _)|(a & b & F & Q)]]; [destruct N; congruence|destruct N; contradiction|].
        destruct (U _ _ F) as [<- <-].
        assert (Q' : (T < 317.3 /\ Cp = solid_Cp D "P") \/ (317.3 < T < 1180.008 /\ Cp = liquid_Cp D "P") \/ (1180.008 < T /\ Cp = gas_Cp D "P")) by tauto.
        assert (T <> 195.4) by (destruct Q as [Q|[Q|Q]]; [apply Q; reflexivity|lra|lra]).
        destruct (h_derive _ _ _ Tr 317.3 1180.008 659 63728 Hs Hl Hg Hr ltac:(lra) ltac:(lra) T Cp HT Q') as [D1 D2].
        destruct (Rlt_le_dec T 195.4) as [L|L].
        -- assert (LL : locally T (fun t => t < 195.4)) by (apply (open_lt 195.4 T L)). split.
           ++ eapply is_derive_ext_loc; [|apply (d_shift (- 521) _ _ _ D1)]. revert LL; apply filter_imp; intros t Ht. unfold pH. rewrite (Rltb_true t 195.4) by lra. rring.
           ++ eapply is_derive_ext_loc; [|apply (d_shift (- (521 / 195.4)) _ _ _ D2)]. revert LL; apply filter_imp; intros t Ht. unfold pS. rewrite (Rltb_true t 195.4) by lra. rring.
        -- assert (L' : 195.4 < T) by lra. assert (LL : locally T (fun t => 195.4 < t)) by (apply (open_gt 195.4 T L')). split.
           ++ eapply is_derive_ext_loc; [|apply (d_shift 0 _ _ _ D1)]. revert LL; apply filter_imp; intros t Ht. unfold pH. rewrite (Rltb_false t 195.4) by lra. rring.
           ++ eapply is_derive_ext_loc; [|apply (d_shift 0 _ _ _ D2)]. revert LL; apply filter_imp; intros t Ht. unfold pS. rewrite (Rltb_false t 195.4) by lra. rring.
      * intros T HT.
        apply (continuous_ext (fun t => (hH (solid_Cp D "P") (liquid_Cp D "P") (gas_Cp D "P") Tr 317.3 1180.008 659 63728 t
            - t * hS (solid_Cp D "P") (liquid_Cp D "P") (gas_Cp D "P") Tr 317.3 1180.008 659 63728 t) + (Rmin t 195.4 * (521 / 195.4) - 521))).
        { intros t. unfold pH, pS. destruct (Rltb_spec t 195.4); [rewrite Rmin_left by lra|rewrite Rmin_right by lra]; match goal with |- @eq _ ?a ?b => change (@eq R a b) end; lra. }
        apply c_plus; [apply h_gibbs_cont; auto; lra|]. apply c_minus; [|apply c_const]. apply c_mult; [apply cont_Rmin|apply c_const].
      * intros H1 H2. specialize (H1 _ _ K). specialize (H2 eq_refl). unfold pH, pS. rewrite Rltb_false by lra.
        destruct (h_ref (solid_Cp D "P") (liquid_Cp D "P") (gas_Cp D "P") Tr 317.3 1180.008 659 63728 ltac:(lra) H1) as [-> ->]. split; ring.
    + assert (X : exists Hf Hv, (forall t, element_deltas D e Tr t = Some (melting_deltas D e Tm Tb Hf Hv Tr t)) /\ 0 < Tm /\ Tm < Tb).
      { clear U N. unfold melting_boiling in K. simpl in K.
        repeat (destruct K as [K|K]; [injection K; clear K; intros; subst; first [congruence|eexists; eexists; split; [intros t; reflexivity|split; lra]]|]). contradiction. }
      destruct X as (Hf & Hv & X & P1 & P2).
      exists (hH (solid_Cp D e) (liquid_Cp D e) (gas_Cp D e) Tr Tm Tb Hf Hv), (hS (solid_Cp D e) (liquid_Cp D e) (gas_Cp D e) Tr Tm Tb Hf Hv). unfold good_element. splits.
      * intros t. rewrite X, melting_is_h. reflexivity.
      * intros T Cp HT [(F & _)|[(F & _)|(a & b & F & Q)]]; [destruct N; contradiction|destruct N; contradiction|].
        destruct (U _ _ F) as [<- <-]. apply h_derive; auto. tauto.
      * intros T HT. apply h_gibbs_cont; auto.
      * intros H1 _. specialize (H1 _ _ K). apply h_ref; auto.
Qed.

Lemma known_supported e : known_element e <-> existsb (String.eqb e) supported = true.
Proof.
  split.
  - intros [->|[K|(a & b & K)]]; [reflexivity| |].
    + unfold always_gas in K. simpl in K. repeat (destruct K as [<-|K]; [reflexivity|]). contradiction.
    + unfold melting_boiling in K. simpl in K. repeat (destruct K as [K|K]; [injection K; clear K; intros; subst; reflexivity|]). contradiction.
  - intros H. apply existsb_exists in H. destruct H as (y & H & E). apply String.eqb_eq in E. subst y.
    unfold supported in H. simpl in H. unfold known_element, always_gas, melting_boiling.
    repeat (destruct H as [<-|H]; [first [left; reflexivity | right; left; simpl; tauto | right; right; eexists; eexists; simpl; tauto]|]). contradiction.
Qed.

Lemma known_deltas D e Tr T : known_element e -> exists p, element_deltas D e Tr T = Some p.
Proof.
  intros K. unfold element_deltas. destruct (assoc e transitions) as [[[[a b] c] d]|] eqn:E; [eexists; reflexivity|].
  destruct (String.eqb e "P"); [eexists; reflexivity|].
  destruct (String.eqb_spec e "S").
  - exfalso. subst e. apply known_supported in K. discriminate.
  - destruct (String.eqb e "C"); [eexists; reflexivity|]. destruct (String.eqb e ""); eexists; reflexivity.
Qed.

Lemma good_list D Tr l : smooth_data D -> 0 < Tr -> (forall c e, In (c, e) l -> known_element e) -> exists hs ss : R -> R,
  (forall t H Se, subtract_elements D Tr t l H Se = Some (H - hs t, Se - ss t)) /\
  (forall T st, 0 < T -> (forall c e, In (c, e) l -> stable_Cp (solid_Cp D) (liquid_Cp D) (gas_Cp D) e T (st e)) ->
     is_derive hs T (total (fun p => fst p * st (snd p) T) l) /\ is_derive ss T (total (fun p => fst p * st (snd p) T) l / T)) /\
  (forall T, 0 < T -> continuous (fun t => hs t - t * ss t) T) /\
  ((forall c e Tm Tb, In (c, e) l -> melting_boiling e Tm Tb -> Tr <= Tm /\ (e = "P"%string -> 195.4 <= Tr)) -> hs Tr = 0 /\ ss Tr = 0).
Proof.
  intros HD Hr. induction l as [|[c e] l IH]; intros K.
  - exists (fun _ => 0), (fun _ => 0). splits.
    + intros. simpl. rewrite !Rminus_0_r. reflexivity.
    + intros T st HT _. simpl. replace (0 / T) with 0 by (field; lra).
      split; apply (is_derive_const (K := R_AbsRing) (V := R_NormedModule)).
    + intros T HT. apply c_minus; [apply c_const|apply c_mult; [apply c_id|apply c_const]].
    + intros _. split; reflexivity.
  - destruct IH as (hs & ss & I1 & I2 & I3 & I4); [intros c' e' Hi; apply (K c' e'); right; auto|].
    assert (Ke : known_element e) by (apply (K c e); left; reflexivity).
    destruct (good_known D e Tr HD Hr Ke) as (h & s & G1 & G2 & G3 & G4).
    exists (fun t => c * h t + hs t), (fun t => c * s t + ss t). splits.
    + intros t H Se. cbn [subtract_elements]. rewrite (proj1 (known_supported e) Ke), G1, I1. f_equal. f_equal; ring.
    + intros T st HT St. destruct (I2 T st HT) as [D1 D2]; [intros c' e' Hi; apply (St c' e'); right; auto|].
      destruct (G2 T (st e) HT (St c e (or_introl eq_refl))) as [E1 E2]. cbn [total fst snd].
      split.
      * apply (is_derive_plus (K := R_AbsRing) (V := R_NormedModule) (fun t => c * h t) hs); [|exact D1]. apply (is_derive_scal h T c); exact E1.
      * replace ((c * st e T + total (fun p : R * string => fst p * st (snd p) T) l) / T) with (c * (st e T / T) + total (fun p : R * string => fst p * st (snd p) T) l / T) by (field; lra).
        apply (is_derive_plus (K := R_AbsRing) (V := R_NormedModule) (fun t => c * s t) ss); [|exact D2]. apply (is_derive_scal s T c); exact E2.
    + intros T HT. apply (continuous_ext (fun t => c * (h t - t * s t) + (hs t - t * ss t))); [intros t; rring|].
      apply c_plus; [apply c_mult; [apply c_const|apply G3; auto]|apply I3; auto].
    + intros N. destruct I4 as [-> ->]; [intros c' e' a b Hi; apply (N c' e' a b); right; auto|].
      destruct G4 as [-> ->]; [intros a b Hm; apply (N c e a b); [left; reflexivity|auto]| |split; ring].
      intros ->. apply (N c "P"%string 317.3 1180.008); [left; reflexivity|unfold melting_boiling; simpl; tauto|reflexivity].
Qed.

Section Formation.
Variables (atoms : Type) (key : atoms -> nat) (react : atoms -> reaction) (D : element_data).

(* the reactions kept for a composition are those of the composition *)
Definition trusted_store (store : list (nat * reaction)) (a : atoms) : Prop := forall e, In e store -> fst e = key a -> snd e = react a.

Lemma run_is store a Hfgm Sfgm Cp T Hf Sf Tr : trusted_store store a ->
  fst (standard_state_ideal_gas_formation key react D store a Hfgm Sfgm Cp T Hf Sf Tr) =
  match formation_of_reaction D (react a) T (match Hf with Some h => h | None => Hfgm end) (match Sf with Some s => s | None => Sfgm end) Cp Tr with
  | Some (H, Se, G) => Formed H Se G | None => NotImplementedErr end.
Proof.
  intros V. unfold standard_state_ideal_gas_formation, formation_direct.
  destruct (find _ store) as [e|] eqn:E; [|reflexivity].
  apply find_some in E. destruct E as [E1 E2]. apply Nat.eqb_eq in E2. rewrite (V e E1 E2). reflexivity.
Qed.

(* formation properties follow the laws of Kirchhoff and of Gibbs and Helmholtz *)
Theorem C74_formation store a nu counts comp Hfgm Sfgm Cp Hf Sf Tr h0 s0 :
  trusted_store store a -> react a = (nu, counts, comp) -> nu <> 0 -> smooth_data D -> smooth_Cp Cp -> 0 < Tr ->
  (forall c e, In (c, e) (combine counts comp) -> known_element e) ->
  h0 = match Hf with Some h => h | None => Hfgm end -> s0 = match Sf with Some s => s | None => Sfgm end ->
  exists H Se G : R -> R,
    (forall T, fst (standard_state_ideal_gas_formation key react D store a Hfgm Sfgm Cp T Hf Sf Tr) = Formed (H T) (Se T) (G T)) /\
    (forall T, G T = H T - T * Se T) /\
    (forall T st, 0 < T -> (forall c e, In (c, e) (combine counts comp) -> stable_Cp (solid_Cp D) (liquid_Cp D) (gas_Cp D) e T (st e)) ->
       let dCp := Cp T - total (fun p => fst p / nu * st (snd p) T) (combine counts comp) in
       is_derive H T dCp /\ is_derive Se T (dCp / T) /\ is_derive G T (- Se T)) /\
    (forall T, 0 < T -> continuous G T) /\
    ((forall c e Tm Tb, In (c, e) (combine counts comp) -> melting_boiling e Tm Tb -> Tr <= Tm /\ (e = "P"%string -> 195.4 <= Tr)) ->
       H Tr = h0 /\ Se Tr = s0).
Proof.
  intros V R0 Hn HD HC Hr K E1 E2.
  destruct (good_list D Tr (combine counts comp) HD Hr K) as (hs & ss & I1 & I2 & I3 & I4).
  set (l := combine counts comp) in *.
  pose (H := fun t => h0 + (int_T Cp Tr t - hs t / nu)). pose (Se := fun t => s0 + (int_over_T Cp Tr t - ss t / nu)).
  assert (TS : forall T (st : string -> R -> R), total (fun p => fst p / nu * st (snd p) T) l = total (fun p : R * string => fst p * st (snd p) T) l / nu).
  { intros T st. generalize l. clear -Hn. intros l. induction l as [|p r IH]; simpl; [field; auto|]. rewrite IH. field; auto. }
  exists H, Se, (fun t => H t - t * Se t). splits.
  - intros T. rewrite run_is by auto. rewrite R0, <- E1, <- E2. unfold formation_of_reaction. fold l. rewrite I1. unfold H, Se. f_equal; field; auto.
  - intros T. reflexivity.
  - intros T st HT St. destruct (I2 T st HT St) as [D1 D2]. cbv zeta. rewrite TS.
    set (q := total (fun p : R * string => fst p * st (snd p) T) l) in *.
    assert (A1 : is_derive H T (Cp T - q / nu)).
    { unfold H. apply (d_shift h0 (fun t => int_T Cp Tr t - hs t / nu)).
      apply (is_derive_minus (K := R_AbsRing) (V := R_NormedModule) (int_T Cp Tr) (fun t => hs t / nu)); [apply int_T_derive; auto|].
      apply (is_derive_ext (fun t => / nu * hs t)); [intros t; unfold Rdiv; rring|]. replace (q / nu) with (/ nu * q) by (unfold Rdiv; ring). apply (is_derive_scal hs T (/ nu)); exact D1. }
    assert (A2 : is_derive Se T ((Cp T - q / nu) / T)).
    { unfold Se. apply (d_shift s0 (fun t => int_over_T Cp Tr t - ss t / nu)).
      replace ((Cp T - q / nu) / T) with (Cp T / T - / nu * (q / T)) by (field; split; lra).
      apply (is_derive_minus (K := R_AbsRing) (V := R_NormedModule) (int_over_T Cp Tr) (fun t => ss t / nu)); [apply int_over_T_derive; auto|].
      apply (is_derive_ext (fun t => / nu * ss t)); [intros t; unfold Rdiv; rring|]. apply (is_derive_scal ss T (/ nu)); exact D2. }
    splits; auto.
    replace (- Se T) with ((Cp T - q / nu) - (1 * Se T + T * ((Cp T - q / nu) / T))) by (field; lra).
    apply (is_derive_minus (K := R_AbsRing) (V := R_NormedModule) H (fun t => t * Se t)); [exact A1|].
    apply (is_derive_mult (fun t => t) Se T 1 ((Cp T - q / nu) / T)); [apply (is_derive_id (K := R_AbsRing))|exact A2|intros; apply Rmult_comm].
  - intros T HT. apply (continuous_ext (fun t => (h0 - t * s0) + ((int_T Cp Tr t - t * int_over_T Cp Tr t) - (hs t - t * ss t) * / nu))).
    + intros t. unfold H, Se, Rdiv. rring.
    + destruct (good_single Cp Tr HC Hr) as (_ & B & _).
      apply c_plus; [apply c_minus; [apply c_const|apply c_mult; [apply c_id|apply c_const]]|].
      apply c_minus; [apply B; auto|apply c_mult; [apply I3; auto|apply c_const]].
  - intros N. destruct (I4 N) as [Z1 Z2]. unfold H, Se. rewrite Z1, Z2, int_T_point, int_over_T_point. split; field; auto.
Qed.

(* an error exactly when an element has no standard state *)
Theorem C74_unsupported store a nu counts comp Hfgm Sfgm Cp T Hf Sf Tr :
  trusted_store store a -> react a = (nu, counts, comp) ->
  (fst (standard_state_ideal_gas_formation key react D store a Hfgm Sfgm Cp T Hf Sf Tr) = NotImplementedErr <->
   exists c e, In (c, e) (combine counts comp) /\ ~ known_element e).
Proof.
  intros V R0. rewrite run_is by auto. rewrite R0. unfold formation_of_reaction.
  assert (X : forall l H Se, (exists p, subtract_elements D Tr T l H Se = Some p /\ forall c e, In (c, e) l -> known_element e) \/
     (subtract_elements D Tr T l H Se = None /\ exists c e, In (c, e) l /\ ~ known_element e)).
  { induction l as [|[c e] l IH]; intros H Se.
    - left. eexists. split; [reflexivity|]. intros ? ? [].
    - cbn [subtract_elements]. destruct (existsb (String.eqb e) supported) eqn:E.
      + destruct (known_deltas D e Tr T (proj2 (known_supported e) E)) as ([p q] & ->).
        destruct (IH (H - c * p) (Se - c * q)) as [(r & Q & A)|(Q & c' & e' & A & B)].
        * left. exists r. split; [exact Q|]. intros c' e' [F|F]; [injection F; intros; subst; apply known_supported; auto|eapply A; eauto].
        * right. split; [exact Q|]. exists c', e'. split; [right; auto|auto].
      + right. split; [reflexivity|]. exists c, e. split; [left; reflexivity|]. intros F. apply known_supported in F. congruence. }
  match goal with |- context [subtract_elements D Tr T ?l ?h ?s] => destruct (X l h s) as [([p q] & -> & A)|(-> & A)] end.
  - split; [discriminate|]. intros (c & e & B & C). exfalso. apply C. eapply A; eauto.
  - split; auto.
Qed.

(* the stores reached by any sequence of calls *)
Inductive reached : list (nat * reaction) -> Prop :=
| reached_start : reached []
| reached_call store a use T hf sf Cp Tr : reached store -> reached (snd (formation_direct key react D use store a T hf sf Cp Tr)).

(* the store stays small and never changes an answer, unless two compositions have the same hash *)
Theorem C74_store store : reached store ->
  (List.length store <= 250)%nat /\
  ((forall a b, key a = key b -> react a = react b) -> forall a T hf sf Cp Tr,
     fst (formation_direct key react D true store a T hf sf Cp Tr) = fst (formation_direct key react D true [] a T hf sf Cp Tr)).
Proof.
  intros HR. assert (I : (List.length store <= 250)%nat /\ forall e, In e store -> exists b, e = (key b, react b)).
  { induction HR as [|store a use T hf sf Cp Tr HR [L I]]; [split; [simpl; lia|intros ? []]|].
    unfold formation_direct. destruct use; [|split; auto].
    destruct (find _ store) as [e|] eqn:E; cbn [snd]; [split; auto|].
    assert (I' : forall e, In e (store ++ [(key a, react a)]) -> exists b, e = (key b, react b)).
    { intros e He. apply in_app_or in He. destruct He as [He|[He|[]]]; [auto|exists a; auto]. }
    destruct (Nat.ltb_spec 250 (List.length (store ++ [(key a, react a)]))) as [Q|Q].
    - destruct store as [|x r]; [simpl in Q; lia|]. simpl tl. split.
      + rewrite app_length. simpl in L |- *. lia.
      + intros e He. apply I'. simpl. right. exact He.
    - split; [lia|exact I']. }
  destruct I as [L I]. split; [exact L|]. intros Inj a T hf sf Cp Tr. unfold formation_direct.
  destruct (find _ store) as [e|] eqn:E; [|reflexivity].
  apply find_some in E. destruct E as [E1 E2]. apply Nat.eqb_eq in E2. destruct (I e E1) as (b & ->). simpl in *. rewrite (Inj b a E2). reflexivity.
Qed.

(* without the cache no call succeeds *)
Theorem C74_no_cache_refuted store a T hf sf Cp Tr : fst (formation_direct key react D false store a T hf sf Cp Tr) = UnboundLocalErr.
Proof. reflexivity. Qed.
End Formation.

(* hydrogen bromide, from hydrogen and bromine, at the reference temperature: the heat of fusion of bromine is taken although the
   reference state of bromine at 298.15 K is the liquid already *)
Theorem C74_bromine D key Hfgm Sfgm Cp : smooth_data D ->
  exists Se G, fst (standard_state_ideal_gas_formation key (fun _ : unit => (2, [1; 1], ["H"; "Br"]%string)) D [] tt Hfgm Sfgm Cp 298.15 None None 298.15) =
  Formed (Hfgm - (10571 + RInt (liquid_Cp D "Br") 265.9 298.15 - RInt (solid_Cp D "Br") 265.9 298.15) / 2) Se G.
Proof.
  intros HD. rewrite run_is by (intros ? []). unfold formation_of_reaction. simpl combine. cbn [subtract_elements].
  change (existsb (String.eqb "H") supported) with true. change (existsb (String.eqb "Br") supported) with true. cbv iota.
  change (element_deltas D "H" 298.15 298.15) with (Some (int_T (gas_Cp D "H") 298.15 298.15, int_over_T (gas_Cp D "H") 298.15 298.15)).
  change (element_deltas D "Br" 298.15 298.15) with (Some (melting_deltas D "Br" 265.9 332.503 10571 29563 298.15 298.15)).
  rewrite melting_is_h. cbv iota beta. eexists; eexists. f_equal. unfold hH.
  rewrite !int_T_point, (Rltb_true 265.9 298.15), (Rltb_false 332.503 298.15), (Rmin_right 298.15 265.9), (Rmin_left 298.15 332.503) by lra.
  unfold int_T. destruct (HD "Br"%string) as (Hs & _ & _).
  assert (E : RInt (solid_Cp D "Br") 298.15 265.9 = - RInt (solid_Cp D "Br") 265.9 298.15).
  { symmetry. apply (opp_RInt_swap (V := R_CompleteNormedModule)). apply smooth_ex; auto; lra. }
  rewrite E. field.
Qed.

Lemma const_smooth (k : R) : smooth_Cp (fun _ => k).
Proof. intros T _. apply c_const. Qed.

(* at the reference temperature the reference value is not always returned *)
Theorem C74_reference_refuted : exists (D : element_data) (react : unit -> reaction) (Hfgm Sfgm : R) (Cp : R -> R),
  smooth_data D /\ smooth_Cp Cp /\ forall H Se G,
  fst (standard_state_ideal_gas_formation (fun _ => 0%nat) react D [] tt Hfgm Sfgm Cp 298.15 None None 298.15) = Formed H Se G -> H <> Hfgm.
Proof.
  exists {| solid_Cp := fun _ _ => 60; liquid_Cp := fun _ _ => 75; gas_Cp := fun _ _ => 30 |}, (fun _ => (2, [1; 1], ["H"; "Br"]%string)), (- 36443), 57.25, (fun _ => 29).
  splits; [intros e; splits; apply const_smooth|apply const_smooth|]. intros H Se G E.
  match type of E with fst (standard_state_ideal_gas_formation ?k _ ?d _ _ _ _ ?c _ _ _ _) = _ => 
    destruct (C74_bromine d k (- 36443) 57.25 c) as (s & g & Q); [intros e; splits; apply const_smooth|] end.
  rewrite Q in E. injection E. intros _ _ <-. cbn [liquid_Cp solid_Cp]. rewrite !RInt_const. unfold scal; simpl; unfold mult; simpl. lra.
Qed.

Example C74_hypotheses_met : exists (D : element_data) (nu : R) (counts : list R) (comp : list string) (Cp : R -> R) (st : string -> R -> R),
  smooth_data D /\ smooth_Cp Cp /\ nu <> 0 /\ (forall c e, In (c, e) (combine counts comp) -> known_element e) /\
  (forall c e, In (c, e) (combine counts comp) -> stable_Cp (solid_Cp D) (liquid_Cp D) (gas_Cp D) e 500 (st e)) /\
  (forall c e Tm Tb, In (c, e) (combine counts comp) -> melting_boiling e Tm Tb -> 298.15 <= Tm /\ (e = "P"%string -> 195.4 <= 298.15)) /\ combine counts comp <> [].
Proof.
  (* iodoethane, with carbon as solid, hydrogen as gas and iodine as vapour at 500 K *)
  exists {| solid_Cp := fun _ _ => 60; liquid_Cp := fun _ _ => 75; gas_Cp := fun _ T => 30 + T |}, 2, [2; 3; 1], ["C"; "H"; "I"]%string, (fun T => 29 + T),
    (fun e => if String.eqb e "C" then fun _ => 60 else fun T => 30 + T).
  assert (L : forall k, smooth_Cp (fun T => k + T)) by (intros k T _; apply c_plus; [apply c_const|apply c_id]).
  assert (MI : melting_boiling "I" 386.75 457.666) by (unfold melting_boiling; simpl; tauto).
  splits.
  - intros e; splits; [apply const_smooth|apply const_smooth|apply L].
  - apply L.
  - lra.
  - intros c e [F|[F|[F|[]]]]; injection F; intros <- <-; apply known_supported; reflexivity.
  - intros c e [F|[F|[F|[]]]]; injection F; intros <- <-; unfold stable_Cp; simpl.
    + left. split; reflexivity.
    + right; left. unfold always_gas. simpl. tauto.
    + right; right. exists 386.75, 457.666. split; [exact MI|]. right; right. split; [lra|reflexivity].
  - intros c e Tm Tb [F|[F|[F|[]]]] M; injection F; intros <- <-; split; try lra.
    + destruct (melting_not_other _ _ _ M); congruence.
    + destruct (melting_not_other _ _ _ M) as [_ N]. exfalso. apply N. unfold always_gas. simpl. tauto.
    + destruct (melting_fun _ _ _ _ _ MI M) as [<- _]. lra.
  - discriminate.
Qed.

(* the absolute entropy as the sum along the path from T_low: with force_gas, or above the boiling point, up to the gas at T_ref;
   between the melting and boiling points up to the liquid at T_ref; at and below the melting point up to the melting point *)
Theorem C74_standard_entropy (dS : list R) (trans : list (R * R)) Cs Cl Cg Sfus Hfus Tm Svap Hvap Tb Tr T_low (force_gas : bool) :
  0 < Tm -> Tm < Tb ->
  let S := standard_entropy dS trans Cs Sfus Hfus Tm Cl Svap Hvap Tb Cg Tr T_low force_gas in
  let fusion := match Sfus with Some s => s | None => Hfus / Tm end in
  let vaporization := match Svap with Some s => s | None => Hvap / Tb end in
  let solid := total (fun s => s) dS + total (fun p => if force_gas then fst p / snd p else if Rlt_dec (snd p) Tr then fst p / snd p else 0) trans
    + RInt (fun T => Cs T / T) T_low Tm in
  (force_gas = true \/ Tb < Tr ->
     S = solid + fusion + RInt (fun T => Cl T / T) Tm Tb + vaporization + RInt (fun T => Cg T / T) Tb Tr) /\
  (force_gas = false -> Tm < Tr <= Tb -> S = solid + fusion + RInt (fun T => Cl T / T) Tm Tr) /\
  (force_gas = false -> Tr <= Tm -> S = solid).
Proof.
  intros P1 P2 S fusion vaporization solid.
  assert (E1 : sum_list dS = total (fun s => s) dS) by (clear; induction dS; simpl; congruence).
  assert (E2 : transition_entropies trans Tr force_gas = total (fun p => if force_gas then fst p / snd p else if Rlt_dec (snd p) Tr then fst p / snd p else 0) trans).
  { clear. induction trans as [|[h t] l IH]; simpl; [reflexivity|]. rewrite IH. unfold Rltb. destruct force_gas, (Rlt_dec t Tr); reflexivity. }
  subst S solid fusion vaporization. unfold standard_entropy, int_over_T. rewrite E1, E2. splits.
  - intros [->|H]; [simpl; destruct Sfus, Svap; ring|]. rewrite (Rltb_true Tb Tr), (Rltb_true Tm Tr), (Rltb_false Tr Tb) by lra.
    rewrite !orb_true_r, andb_false_r. destruct Sfus, Svap; ring.
  - intros -> [H1 H2]. rewrite (Rltb_true Tm Tr), (Rltb_false Tb Tr) by lra. simpl.
    destruct (Rltb_spec Tr Tb) as [Q|Q]; [destruct Sfus; ring|]. replace Tb with Tr by lra. destruct Sfus; ring.
  - intros -> H. rewrite (Rltb_false Tm Tr), (Rltb_false Tb Tr) by lra. simpl. ring.
Qed.

(* a substance that is solid at T_ref is not given the entropy of the solid at T_ref *)
Theorem C74_solid_entropy_refuted : exists Cs Cl Cg Hfus Tm Hvap Tb Tr T_low,
  0 < T_low < Tr /\ Tr < Tm < Tb /\ smooth_Cp Cs /\
  standard_entropy [] [] Cs None Hfus Tm Cl None Hvap Tb Cg Tr T_low false <> RInt (fun T => Cs T / T) T_low Tr.
Proof.
  exists (fun T => T), (fun T => T), (fun T => T), 1, 400, 1, 500, 300, (1/2). splits; try lra.
  - intros T _. apply c_id.
  - destruct (C74_standard_entropy [] [] (fun T => T) (fun T => T) (fun T => T) None 1 400 None 1 500 300 (1/2) false) as (_ & _ & E); try lra.
    simpl in E |- *. rewrite E by (auto; lra).
    assert (X : forall a b, 0 < a < b -> RInt (fun T => T / T) a b = b - a).
    { intros a b H. rewrite (RInt_ext _ (fun _ => 1)).
      - rewrite RInt_const. unfold scal; simpl; unfold mult; simpl. ring.
      - intros x [H1 _]. rewrite Rmin_left in H1 by lra. match goal with |- @eq _ ?u ?v => change (@eq R u v) end. field. lra. }
    rewrite !X by lra. lra.
Qed.

(* changing the basis of an absolute entropy: the path through the boiling point, both ways, and agreement with standard_entropy *)
Theorem C74_basis Cl Cg Hvap Tb Tr s : smooth_Cp Cl -> smooth_Cp Cg -> 0 < Tb -> 0 < Tr ->
  S0_basis_converter Cl Cg Hvap Tb None None Tr = None /\
  (forall o, S0_basis_converter Cl Cg Hvap Tb (Some s) o Tr =
     Some (s + RInt (fun T => Cl T / T) Tr Tb + Hvap / Tb - RInt (fun T => Cg T / T) Tr Tb)) /\
  (forall g, S0_basis_converter Cl Cg Hvap Tb (Some s) None Tr = Some g -> S0_basis_converter Cl Cg Hvap Tb None (Some g) Tr = Some s) /\
  (forall l, S0_basis_converter Cl Cg Hvap Tb None (Some s) Tr = Some l -> S0_basis_converter Cl Cg Hvap Tb (Some l) None Tr = Some s) /\
  (forall dS Cs Hfus Tm T_low, 0 < Tm < Tr -> Tr <= Tb -> 
     S0_basis_converter Cl Cg Hvap Tb (Some (standard_entropy dS [] Cs None Hfus Tm Cl None Hvap Tb Cg Tr T_low false)) None Tr =
     Some (standard_entropy dS [] Cs None Hfus Tm Cl None Hvap Tb Cg Tr T_low true)).
Proof.
  intros Sl Sg P1 P2.
  assert (W : forall C, smooth_Cp C -> RInt (fun T => C T / T) Tb Tr = - RInt (fun T => C T / T) Tr Tb).
  { intros C HC. symmetry. apply (opp_RInt_swap (V := R_CompleteNormedModule)). apply smooth_ex; auto. apply smooth_over_T; auto. }
  assert (A : forall z o, S0_basis_converter Cl Cg Hvap Tb (Some z) o Tr = Some (z + RInt (fun T => Cl T / T) Tr Tb + Hvap / Tb - RInt (fun T => Cg T / T) Tr Tb)).
  { intros z o. unfold S0_basis_converter, int_over_T. rewrite (W Cg) by auto. f_equal. ring. }
  assert (B : forall z, S0_basis_converter Cl Cg Hvap Tb None (Some z) Tr = Some (z - (RInt (fun T => Cl T / T) Tr Tb + Hvap / Tb - RInt (fun T => Cg T / T) Tr Tb))).
  { intros z. unfold S0_basis_converter, int_over_T. rewrite (W Cl) by auto. f_equal. ring. }
  splits.
  - reflexivity.
  - intros o. apply A.
  - intros g. rewrite A. intros E. injection E. intros <-. rewrite B. f_equal. ring.
  - intros l. rewrite B. intros E. injection E. intros <-. rewrite A. f_equal. ring.
  - intros dS Cs Hfus Tm T_low Hm Hb. rewrite A.
    assert (P3 : Tm < Tb) by lra.
    destruct (C74_standard_entropy dS [] Cs Cl Cg None Hfus Tm None Hvap Tb Tr T_low false) as (_ & E1 & _); try lra.
    destruct (C74_standard_entropy dS [] Cs Cl Cg None Hfus Tm None Hvap Tb Tr T_low true) as (E2 & _ & _); try lra.
    simpl in E1, E2. rewrite E1, E2 by (auto; lra). rewrite (W Cg) by auto.
    assert (Ch : RInt (fun T => Cl T / T) Tm Tb = RInt (fun T => Cl T / T) Tm Tr + RInt (fun T => Cl T / T) Tr Tb).
    { symmetry. apply (RInt_Chasles (V := R_CompleteNormedModule) (fun T => Cl T / T)); apply smooth_ex; try apply smooth_over_T; auto; lra. }
    rewrite Ch. f_equal. ring.
Qed.
