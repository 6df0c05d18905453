(* C18: the temperature derivatives reported by NRTL are the derivatives of its GE (and of its tau, alpha and G matrices). *)
From Coq Require Import Reals Lra Lia Arith Bool FunctionalExtensionality.
From Coquelicot Require Import Coquelicot.
From Verif Require Import Base BaseFacts Spec_mix Spec_activity MixFacts MixDeriv LnphiFacts Gen_nrtl NrtlFacts.
Open Scope R_scope.

Lemma ati_spec N d : if NRTL_alpha_temperature_independent N d then forall i j, (i < N)%nat -> (j < N)%nat -> d i j = 0 else exists i j, (i < N)%nat /\ (j < N)%nat /\ d i j <> 0.
Proof.
  unfold NRTL_alpha_temperature_independent. cbv zeta.
  set (row := fun i b => loop N (fun j b => if negb (Reqb (d i j) 0) then false else b) b).
  assert (Hr : forall i b, row i b = true <-> b = true /\ forall j, (j < N)%nat -> d i j = 0).
  { intros i b. unfold row. assert (forall m, loop m (fun j b => if negb (Reqb (d i j) 0) then false else b) b = true <-> b = true /\ forall j, (j < m)%nat -> d i j = 0) as H; [|apply H].
    induction m. { cbn [loop]. split; [intros; split; auto; intros; lia|tauto]. } cbn [loop]. destruct (Reqb_spec (d i m) 0) as [E|E]; cbn [negb].
    - rewrite IHm. split; intros [H1 H2]; split; auto. intros j Hj. destruct (Nat.eq_dec j m) as [->|]; auto. apply H2; lia.
    - split; [discriminate|]. intros [_ H]. exfalso. apply E. apply H. lia. }
  assert (H : forall m, loop m row true = true <-> forall i j, (i < m)%nat -> (j < N)%nat -> d i j = 0).
  { induction m. { cbn [loop]. split; auto. intros; lia. } cbn [loop]. rewrite Hr, IHm. split.
    - intros [H1 H2] i j Hi Hj. destruct (Nat.eq_dec i m) as [->|]; auto. apply H1; auto; lia.
    - intros H; split; auto. }
  change (if loop N row true then forall i j, (i < N)%nat -> (j < N)%nat -> d i j = 0 else exists i j, (i < N)%nat /\ (j < N)%nat /\ d i j <> 0).
  destruct (loop N row true) eqn:E. now apply H.
  assert (~ forall i, (i < N)%nat -> forall j, (j < N)%nat -> d i j = 0) as K. { intros K. assert (true = false) as X; [|discriminate]. rewrite <- E. symmetry. apply H. auto. }
  assert (forall m, (m <= N)%nat -> (forall i, (i < m)%nat -> forall j, (j < N)%nat -> d i j = 0) \/ exists i j, (i < N)%nat /\ (j < N)%nat /\ d i j <> 0) as F.
  { induction m; intros Hm. left; intros; lia. destruct IHm as [I|I]; [lia| |auto].
    assert (forall q, (q <= N)%nat -> (forall j, (j < q)%nat -> d m j = 0) \/ exists i j, (i < N)%nat /\ (j < N)%nat /\ d i j <> 0) as F.
    { induction q; intros Hq. left; intros; lia. destruct IHq as [J|J]; [lia| |auto]. destruct (Req_EM_T (d m q) 0) as [Z|Z]. left. intros j Hj. destruct (Nat.eq_dec j q) as [->|]; auto. apply J; lia. right. exists m, q. splits; auto; lia. }
    destruct (F N) as [J|J]; auto. left. intros i Hi. destruct (Nat.eq_dec i m) as [->|]; auto. apply I; lia. }
  destruct (F N) as [G|G]; auto. now elim K.
Qed.

Section NRTL.
Context (N : nat) (a b e f g h c d : nat -> nat -> R).
Notation ati := (NRTL_alpha_temperature_independent N d).
Definition tauf i j T := nrtl_tau_form (a i j) (b i j) (e i j) (f i j) (g i j) (h i j) T.
Definition dtauf i j T := - b i j / T ^ 2 + e i j / T + f i j - 2 * g i j / T ^ 3 + 2 * h i j * T.
Definition d2tauf i j T := 2 * b i j / T ^ 3 - e i j / T ^ 2 + 6 * g i j / T ^ 4 + 2 * h i j.
Definition d3tauf i j T := - 6 * b i j / T ^ 4 + 2 * e i j / T ^ 3 - 24 * g i j / T ^ 5.
Definition alf i j T := c i j + d i j * T.
Definition Gf i j T := nrtl_G_form (c i j) (d i j) (tauf i j T) T.
Definition l1 i j T := alf i j T * dtauf i j T + d i j * tauf i j T.
Definition l2 i j T := alf i j T * d2tauf i j T + 2 * d i j * dtauf i j T.
Definition l3 i j T := alf i j T * d3tauf i j T + 3 * d i j * d2tauf i j T.
Definition dGf i j T := - l1 i j T * Gf i j T.
Definition d2Gf i j T := (l1 i j T ^ 2 - l2 i j T) * Gf i j T.
Definition d3Gf i j T := (- l1 i j T ^ 3 + 3 * l1 i j T * l2 i j T - l3 i j T) * Gf i j T.
Section Entry.
Context (i j : nat) (Hi : (i < N)%nat) (Hj : (j < N)%nat).
Lemma taus_eq T : 0 < T -> NRTL_taus N T a b e f g h i j = tauf i j T.
Proof. intros. unfold NRTL_taus, nrtl_taus, tauf, nrtl_tau_form. entries. field. lra. Qed.
Lemma dtaus_eq T : 0 < T -> NRTL_dtaus_dT N T b e f g h i j = dtauf i j T.
Proof. intros. unfold NRTL_dtaus_dT, nrtl_dtaus_dT, dtauf. entries. field. lra. Qed.
Lemma d2taus_eq T : 0 < T -> NRTL_d2taus_dT2 N T b e g h i j = d2tauf i j T.
Proof. intros. unfold NRTL_d2taus_dT2, nrtl_d2taus_dT2, d2tauf. entries. field. lra. Qed.
Lemma d3taus_eq T : 0 < T -> NRTL_d3taus_dT3 N T b e g i j = d3tauf i j T.
Proof. intros. unfold NRTL_d3taus_dT3, nrtl_d3taus_dT3, d3tauf. entries. field. lra. Qed.
Lemma alphas_eq T : NRTL_alphas N T c d ati i j = alf i j T.
Proof. unfold NRTL_alphas, nrtl_alphas, alf. pose proof (ati_spec N d) as H. destruct (NRTL_alpha_temperature_independent N d). rewrite H by auto. ring. entries. ring. Qed.
Lemma Gs_eq T : 0 < T -> NRTL_Gs N T a b e f g h c d ati i j = Gf i j T.
Proof. intros. unfold NRTL_Gs, nrtl_Gs, Gf, nrtl_G_form. entries. rewrite taus_eq, alphas_eq by auto. reflexivity. Qed.
Lemma dGs_eq T : 0 < T -> NRTL_dGs_dT N T a b e f g h c d ati i j = dGf i j T.
Proof. intros. unfold NRTL_dGs_dT, nrtl_dGs_dT, NRTL_dalphas_dT, dGf, l1. entries. rewrite taus_eq, dtaus_eq, alphas_eq, Gs_eq by auto. ring. Qed.
Lemma d2Gs_eq T : 0 < T -> NRTL_d2Gs_dT2 N T a b e f g h c d ati i j = d2Gf i j T.
Proof. intros. unfold NRTL_d2Gs_dT2, nrtl_d2Gs_dT2, NRTL_dalphas_dT, d2Gf, l1, l2. entries. rewrite taus_eq, dtaus_eq, d2taus_eq, alphas_eq, Gs_eq by auto. ring. Qed.
Lemma d3Gs_eq T : 0 < T -> NRTL_d3Gs_dT3 N T a b e f g h c d ati i j = d3Gf i j T.
Proof. intros. unfold NRTL_d3Gs_dT3, nrtl_d3Gs_dT3, NRTL_dalphas_dT, d3Gf, l1, l2, l3. entries. rewrite taus_eq, dtaus_eq, d2taus_eq, d3taus_eq, alphas_eq, Gs_eq by auto. ring. Qed.
End Entry.
Lemma tauf_d i j T : 0 < T -> is_derive (tauf i j) T (dtauf i j T).
Proof. intros. unfold tauf, nrtl_tau_form, dtauf. auto_derive. splits; auto; nz. chR. field. lra. Qed.
Lemma dtauf_d i j T : 0 < T -> is_derive (dtauf i j) T (d2tauf i j T).
Proof. intros. unfold dtauf, d2tauf. auto_derive. splits; auto; nz. chR. field. lra. Qed.
Lemma d2tauf_d i j T : 0 < T -> is_derive (d2tauf i j) T (d3tauf i j T).
Proof. intros. unfold d3tauf, d2tauf. auto_derive. splits; auto; nz. chR. field. lra. Qed.
Lemma Gf_d i j T : 0 < T -> is_derive (Gf i j) T (dGf i j T).
Proof. intros HT. unfold Gf, nrtl_G_form, dGf, l1, Gf, nrtl_G_form, alf. pose proof (tauf_d i j T HT) as H. auto_derive. exd. dv H. chR. ring. Qed.
Lemma l1_d i j T : 0 < T -> is_derive (l1 i j) T (l2 i j T).
Proof. intros HT. unfold l1, l2, alf. pose proof (tauf_d i j T HT) as H. pose proof (dtauf_d i j T HT) as H1. auto_derive. splits; trivial; exd. dv H. dv H1. chR. ring. Qed.
Lemma l2_d i j T : 0 < T -> is_derive (l2 i j) T (l3 i j T).
Proof. intros HT. unfold l2, l3, alf. pose proof (dtauf_d i j T HT) as H. pose proof (d2tauf_d i j T HT) as H1. auto_derive. splits; trivial; exd. dv H. dv H1. chR. ring. Qed.
Lemma dGf_d i j T : 0 < T -> is_derive (dGf i j) T (d2Gf i j T).
Proof. intros HT. unfold dGf, d2Gf. pose proof (l1_d i j T HT) as H. pose proof (Gf_d i j T HT) as H1. auto_derive. splits; trivial; exd. dv H. dv H1. chR. unfold dGf. ring. Qed.
Lemma d2Gf_d i j T : 0 < T -> is_derive (d2Gf i j) T (d3Gf i j T).
Proof. intros HT. unfold d2Gf, d3Gf. pose proof (l1_d i j T HT) as H. pose proof (Gf_d i j T HT) as H1. pose proof (l2_d i j T HT) as H2. auto_derive. splits; trivial; exd. dv H. dv H1. dv H2. chR. unfold dGf. ring. Qed.
Lemma Gf_pos i j T : 0 < Gf i j T. Proof. apply exp_pos. Qed.

(* ---- the sums computed by the class ---- *)
Section Sum.
Context (x : nat -> R) (T : R) (HT : 0 < T).
Notation G_ := (fun j i => Gf j i T). Notation tau_ := (fun j i => tauf j i T).
Lemma xG_eq i : (i < N)%nat -> NRTL_xj_Gs_jis N T x a b e f g h c d ati i = SA N x G_ i.
Proof. intros. unfold NRTL_xj_Gs_jis, nrtl_xj_Gs_jis_and_Gs_taus_jis, NRTL_Gs_transposed. entries. unfold SA. rewrite Rplus_0_l. apply rsum_ext. intros. rewrite Gs_eq by auto. ring. Qed.
Lemma xGtau_eq i : (i < N)%nat -> NRTL_xj_Gs_taus_jis N T x a b e f g h c d ati i = SB N x G_ tau_ i.
Proof.
  intros. unfold NRTL_xj_Gs_taus_jis, nrtl_xj_Gs_jis_and_Gs_taus_jis. entries. unfold SB. rewrite Rplus_0_l. apply rsum_ext. intros.
  unfold NRTL_Gs_taus_transposed, NRTL_Gs_transposed. cbv zeta.
  match goal with |- context [loop ?n (fun x_ o => loop ?n (fun y_ o' => updm o' x_ y_ (o' x_ y_ * @?q x_ y_)) o) ?w ?k ?l] => rewrite (loop_updm_self n (fun r s v => v * q r s) w k l) by auto end.
  rewrite taus_eq, Gs_eq by auto. ring.
Qed.
Lemma inv_eq i : (i < N)%nat -> NRTL_xj_Gs_jis_inv N T x a b e f g h c d ati i = / SA N x G_ i.
Proof. intros. unfold NRTL_xj_Gs_jis_inv. cbv zeta. rewrite xG_eq by auto. unfold Rdiv. ring. Qed.
Lemma xdG_eq i : (i < N)%nat -> NRTL_xj_dGs_dT_jis N T x a b e f g h c d ati i = SA N x (fun j i => dGf j i T) i.
Proof. intros. unfold NRTL_xj_dGs_dT_jis, nrtl_xj_Gs_jis. entries. unfold SA. rewrite Rplus_0_l. apply rsum_ext. intros. rewrite dGs_eq by auto. ring. Qed.
Lemma xtaudG_eq i : (i < N)%nat -> NRTL_xj_taus_dGs_dT_jis N T x a b e f g h c d ati i = SB N x (fun j i => dGf j i T) tau_ i.
Proof. intros. unfold NRTL_xj_taus_dGs_dT_jis, nrtl_xj_Gs_taus_jis. entries. unfold SB. rewrite Rplus_0_l. apply rsum_ext. intros. rewrite dGs_eq, taus_eq by auto. ring. Qed.
Lemma xGdtau_eq i : (i < N)%nat -> NRTL_xj_Gs_dtaus_dT_jis N T x a b e f g h c d ati i = SB N x G_ (fun j i => dtauf j i T) i.
Proof. intros. unfold NRTL_xj_Gs_dtaus_dT_jis, nrtl_xj_Gs_taus_jis. entries. unfold SB. rewrite Rplus_0_l. apply rsum_ext. intros. rewrite Gs_eq, dtaus_eq by auto. ring. Qed.
Lemma SA_pos i : amounts N x -> 0 < SA N x G_ i.
Proof. intros. apply amounts_pos; auto. intros; apply Gf_pos. Qed.
Lemma GE_eq : NRTL_GE N T x a b e f g h c d ati = Rgas * T * SE N x G_ tau_.
Proof. unfold NRTL_GE, nrtl_GE. entries. unfold SE. rewrite Rplus_0_l, (Rmult_comm (rsum _ _)), (Rmult_comm T). f_equal. apply rsum_ext. intros. rewrite xGtau_eq, inv_eq by auto. unfold Rdiv. ring. Qed.

Definition ET1 i := SB N x (fun j i => dGf j i T) tau_ i + SB N x G_ (fun j i => dtauf j i T) i.
Lemma dGE_eq : amounts N x -> NRTL_dGE_dT N T x a b e f g h c d ati = Rgas * rsum N (fun i => x i * (SB N x G_ tau_ i + T * (ET1 i - SB N x G_ tau_ i * SA N x (fun j i => dGf j i T) i / SA N x G_ i)) / SA N x G_ i).
Proof. intros Hx. unfold NRTL_dGE_dT, nrtl_dGE_dT. entries. rewrite Rplus_0_l, Rmult_comm. f_equal. apply rsum_ext. intros. rewrite xGtau_eq, inv_eq, xtaudG_eq, xGdtau_eq, xdG_eq by auto. unfold ET1. field. apply Rgt_not_eq. now apply SA_pos. Qed.
End Sum.
Lemma loop9 n (f1 f2 f3 f4 f5 f6 f7 f8 f9 : nat -> R) :
  loop n (fun j (st : (R*R*R*R*R*R*R*R*R)%type) => let '(s1,s2,s3,s4,s5,s6,s7,s8,s9) := st in (s1 + f1 j, s2 + f2 j, s3 + f3 j, s4 + f4 j, s5 + f5 j, s6 + f6 j, s7 + f7 j, s8 + f8 j, s9 + f9 j)) (0,0,0,0,0,0,0,0,0)
  = (rsum n f1, rsum n f2, rsum n f3, rsum n f4, rsum n f5, rsum n f6, rsum n f7, rsum n f8, rsum n f9).
Proof. induction n; auto. cbn [loop rsum]. rewrite IHn. reflexivity. Qed.
Lemma d2GE_eq x T : 0 < T -> amounts N x -> NRTL_d2GE_dT2 N T x a b e f g h c d ati =
  let A i := SA N x (fun j i => Gf j i T) i in let A1 i := SA N x (fun j i => dGf j i T) i in let A2 i := SA N x (fun j i => d2Gf j i T) i in
  let B i := SB N x (fun j i => Gf j i T) (fun j i => tauf j i T) i in let B1 i := ET1 x T i in
  let B2 i := SB N x (fun j i => d2Gf j i T) (fun j i => tauf j i T) i + SB N x (fun j i => Gf j i T) (fun j i => d2tauf j i T) i + 2 * SB N x (fun j i => dGf j i T) (fun j i => dtauf j i T) i in
  Rgas * rsum N (fun i => x i * (2 * B1 i - 2 * B i * A1 i / A i + T * (B2 i - B i * A2 i / A i + 2 * B i * A1 i ^ 2 / A i ^ 2 - 2 * A1 i * B1 i / A i)) / A i).
Proof.
  intros HT Hx. cbv zeta. unfold NRTL_d2GE_dT2, nrtl_d2GE_dT2. cbv zeta.
  match goal with |- Rgas * loop N ?st 0 = _ => rewrite (loop_ext N st (fun i tot => tot + x i * (2 * ET1 x T i - 2 * SB N x (fun j i => Gf j i T) (fun j i => tauf j i T) i * SA N x (fun j i => dGf j i T) i / SA N x (fun j i => Gf j i T) i
      + T * (SB N x (fun j i => d2Gf j i T) (fun j i => tauf j i T) i + SB N x (fun j i => Gf j i T) (fun j i => d2tauf j i T) i + 2 * SB N x (fun j i => dGf j i T) (fun j i => dtauf j i T) i - SB N x (fun j i => Gf j i T) (fun j i => tauf j i T) i * SA N x (fun j i => d2Gf j i T) i / SA N x (fun j i => Gf j i T) i
      + 2 * SB N x (fun j i => Gf j i T) (fun j i => tauf j i T) i * SA N x (fun j i => dGf j i T) i ^ 2 / SA N x (fun j i => Gf j i T) i ^ 2 - 2 * SA N x (fun j i => dGf j i T) i * ET1 x T i / SA N x (fun j i => Gf j i T) i)) / SA N x (fun j i => Gf j i T) i) 0) end.
  - rewrite loop_rsum. f_equal. rewrite Rplus_0_l. reflexivity.
  - intros i s Hi.
    match goal with |- context [loop N ?st (0, 0, 0, 0, 0, 0, 0, 0, 0)] => rewrite (loop_ext N st (fun j (st9 : (R*R*R*R*R*R*R*R*R)%type) => let '(s1,s2,s3,s4,s5,s6,s7,s8,s9) := st9 in (s1 + x j * Gf j i T, s2 + x j * Gf j i T * tauf j i T, s3 + x j * dGf j i T, s4 + x j * dGf j i T * tauf j i T, s5 + x j * Gf j i T * dtauf j i T, s6 + x j * d2Gf j i T, s7 + x j * d2Gf j i T * tauf j i T, s8 + x j * Gf j i T * d2tauf j i T, s9 + x j * dGf j i T * dtauf j i T))) end.
    + rewrite loop9. fold (SA N x (fun j i => Gf j i T) i) (SA N x (fun j i => dGf j i T) i) (SA N x (fun j i => d2Gf j i T) i).
      change (rsum N (fun j => x j * Gf j i T * tauf j i T)) with (SB N x (fun j i => Gf j i T) (fun j i => tauf j i T) i).
      change (rsum N (fun j => x j * dGf j i T * tauf j i T)) with (SB N x (fun j i => dGf j i T) (fun j i => tauf j i T) i).
      change (rsum N (fun j => x j * Gf j i T * dtauf j i T)) with (SB N x (fun j i => Gf j i T) (fun j i => dtauf j i T) i).
      change (rsum N (fun j => x j * d2Gf j i T * tauf j i T)) with (SB N x (fun j i => d2Gf j i T) (fun j i => tauf j i T) i).
      change (rsum N (fun j => x j * Gf j i T * d2tauf j i T)) with (SB N x (fun j i => Gf j i T) (fun j i => d2tauf j i T) i).
      change (rsum N (fun j => x j * dGf j i T * dtauf j i T)) with (SB N x (fun j i => dGf j i T) (fun j i => dtauf j i T) i).
      change (rsum N (fun j => x j * Gf j i T)) with (SA N x (fun j i => Gf j i T) i). change (rsum N (fun j => x j * dGf j i T)) with (SA N x (fun j i => dGf j i T) i). change (rsum N (fun j => x j * d2Gf j i T)) with (SA N x (fun j i => d2Gf j i T) i).
      unfold ET1. pose proof (SA_pos x T i Hx). field. lra.
    + intros j [[[[[[[[s1 s2] s3] s4] s5] s6] s7] s8] s9] Hj. cbv zeta. rewrite taus_eq, dtaus_eq, d2taus_eq, Gs_eq, dGs_eq, d2Gs_eq by auto. repeat match goal with |- (_, _) = (_, _) => apply f_equal2 end; ring.
Qed.

(* ---- derivatives ---- *)
Lemma pos_loc T (P : R -> Prop) : 0 < T -> (forall t, 0 < t -> P t) -> locally T P.
Proof. intros HT HP. exists (mkposreal T HT). intros t Ht. apply HP. unfold ball in Ht; simpl in Ht; unfold AbsRing_ball, abs, minus, plus, opp in Ht; simpl in Ht. apply Rabs_def2 in Ht. lra. Qed.
Lemma SA_T (F dF : nat -> nat -> R -> R) x T i : (forall i j, is_derive (F i j) T (dF i j T)) -> is_derive (fun t => SA N x (fun j i => F j i t) i) T (SA N x (fun j i => dF j i T) i).
Proof. intros H. unfold SA. apply (is_derive_rsum N (fun j t => x j * F j i t)). intros j _. pose proof (H j i) as K. auto_derive. exd. dv K. chR. ring. Qed.
Lemma SB_T (F dF t_ dt : nat -> nat -> R -> R) x T i : (forall i j, is_derive (F i j) T (dF i j T)) -> (forall i j, is_derive (t_ i j) T (dt i j T)) ->
  is_derive (fun t => SB N x (fun j i => F j i t) (fun j i => t_ j i t) i) T (SB N x (fun j i => dF j i T) (fun j i => t_ j i T) i + SB N x (fun j i => F j i T) (fun j i => dt j i T) i).
Proof. intros H H2. unfold SB. rewrite <- rsum_plus. apply (is_derive_rsum N (fun j t => x j * F j i t * t_ j i t)). intros j _. pose proof (H j i) as K. pose proof (H2 j i) as K2. auto_derive. splits; trivial; exd. dv K. dv K2. chR. ring. Qed.

Lemma GE_T x T : 0 < T -> amounts N x -> is_derive (fun t => NRTL_GE N t x a b e f g h c d ati) T (NRTL_dGE_dT N T x a b e f g h c d ati).
Proof.
  intros HT Hx. rewrite dGE_eq by auto.
  apply (is_derive_ext_loc (fun t => Rgas * t * SE N x (fun j i => Gf j i t) (fun j i => tauf j i t))). { apply pos_loc; auto. intros t Ht. now rewrite GE_eq. }
  apply (is_derive_ext (fun t => rsum N (fun i => Rgas * t * (x i * (SB N x (fun j i => Gf j i t) (fun j i => tauf j i t) i / SA N x (fun j i => Gf j i t) i))))). { intros t. unfold SE. apply rsum_scal_l. } rewrite <- rsum_scal_l.
  apply (is_derive_rsum N (fun i t => Rgas * t * (x i * (SB N x (fun j i => Gf j i t) (fun j i => tauf j i t) i / SA N x (fun j i => Gf j i t) i)))).
  intros i Hi. pose proof (SA_T Gf dGf x T i (fun i j => Gf_d i j T HT)) as HA. pose proof (SB_T Gf dGf tauf dtauf x T i (fun i j => Gf_d i j T HT) (fun i j => tauf_d i j T HT)) as HB. pose proof (SA_pos x T i Hx) as HP.
  fold (ET1 x T i) in HB. set (fa := fun t : R => SA N x (fun j i => Gf j i t) i). set (fb := fun t : R => SB N x (fun j i => Gf j i t) (fun j i => tauf j i t) i).
  change (is_derive fa T (SA N x (fun j i => dGf j i T) i)) in HA. change (is_derive fb T (ET1 x T i)) in HB. change (0 < fa T) in HP.
  change (SA N x (fun j i => Gf j i T) i) with (fa T). change (SB N x (fun j i => Gf j i T) (fun j i => tauf j i T) i) with (fb T).
  change (is_derive (fun t : R => Rgas * t * (x i * (fb t / fa t))) T (Rgas * (x i * (fb T + T * (ET1 x T i - fb T * SA N x (fun j i => dGf j i T) i / fa T)) / fa T))).
  clearbody fa fb. auto_derive. splits; trivial; try exd. lra. dv HA. dv HB. chR. field. lra.
Qed.
Lemma ET1_T x T i : 0 < T -> is_derive (fun t => ET1 x t i) T (SB N x (fun j i => d2Gf j i T) (fun j i => tauf j i T) i + SB N x (fun j i => Gf j i T) (fun j i => d2tauf j i T) i + 2 * SB N x (fun j i => dGf j i T) (fun j i => dtauf j i T) i).
Proof.
  intros HT. unfold ET1. eapply is_derive_eq. apply @is_derive_plus.
  apply (SB_T dGf d2Gf tauf dtauf x T i (fun i j => dGf_d i j T HT) (fun i j => tauf_d i j T HT)). apply (SB_T Gf dGf dtauf d2tauf x T i (fun i j => Gf_d i j T HT) (fun i j => dtauf_d i j T HT)).
  unfold plus; simpl. chR. ring.
Qed.
Lemma dGE_T x T : 0 < T -> amounts N x -> is_derive (fun t => NRTL_dGE_dT N t x a b e f g h c d ati) T (NRTL_d2GE_dT2 N T x a b e f g h c d ati).
Proof.
  intros HT Hx. rewrite d2GE_eq by auto. cbv zeta.
  apply (is_derive_ext_loc (fun T => Rgas * rsum N (fun i => x i * (SB N x (fun j i => Gf j i T) (fun j i => tauf j i T) i + T * (ET1 x T i - SB N x (fun j i => Gf j i T) (fun j i => tauf j i T) i * SA N x (fun j i => dGf j i T) i / SA N x (fun j i => Gf j i T) i)) / SA N x (fun j i => Gf j i T) i))). { apply pos_loc; auto. intros t Ht. now rewrite dGE_eq. }
  apply @is_derive_scal. apply (is_derive_rsum N (fun i T => x i * (SB N x (fun j i => Gf j i T) (fun j i => tauf j i T) i + T * (ET1 x T i - SB N x (fun j i => Gf j i T) (fun j i => tauf j i T) i * SA N x (fun j i => dGf j i T) i / SA N x (fun j i => Gf j i T) i)) / SA N x (fun j i => Gf j i T) i)).
  intros i Hi. pose proof (SA_T Gf dGf x T i (fun i j => Gf_d i j T HT)) as HA. pose proof (SA_T dGf d2Gf x T i (fun i j => dGf_d i j T HT)) as HA1. pose proof (SB_T Gf dGf tauf dtauf x T i (fun i j => Gf_d i j T HT) (fun i j => tauf_d i j T HT)) as HB. pose proof (SA_pos x T i Hx) as HP. pose proof (ET1_T x T i HT) as HB1.
  fold (ET1 x T i) in HB. set (fa := fun t : R => SA N x (fun j i => Gf j i t) i). set (fb := fun t : R => SB N x (fun j i => Gf j i t) (fun j i => tauf j i t) i). set (fa1 := fun t : R => SA N x (fun j i => dGf j i t) i). set (fb1 := fun t : R => ET1 x t i).
  set (vb2 := SB N x (fun j i => d2Gf j i T) (fun j i => tauf j i T) i + SB N x (fun j i => Gf j i T) (fun j i => d2tauf j i T) i + 2 * SB N x (fun j i => dGf j i T) (fun j i => dtauf j i T) i) in *. set (va2 := SA N x (fun j i => d2Gf j i T) i) in *.
  change (is_derive fa T (fa1 T)) in HA. change (is_derive fb T (fb1 T)) in HB. change (0 < fa T) in HP. change (is_derive fa1 T va2) in HA1. change (is_derive fb1 T vb2) in HB1.
  change (is_derive (fun t : R => x i * (fb t + t * (fb1 t - fb t * fa1 t / fa t)) / fa t) T (x i * (2 * fb1 T - 2 * fb T * fa1 T / fa T + T * (vb2 - fb T * va2 / fa T + 2 * fb T * fa1 T ^ 2 / fa T ^ 2 - 2 * fa1 T * fb1 T / fa T)) / fa T)).
  clearbody fa fb fa1 fb1 va2 vb2. auto_derive. splits; trivial; try exd; lra. dv HA. dv HB. dv HA1. dv HB1. chR. field. lra.
Qed.
End NRTL.

(* ---- statements ---- *)
Section Statements.
Variables (N : nat) (tau_as tau_bs tau_es tau_fs tau_gs tau_hs alpha_cs alpha_ds : nat -> nat -> R).
(* the flag stored by the constructor *)
Let flag := NRTL_alpha_temperature_independent N alpha_ds.
Let GE x T := NRTL_GE N T x tau_as tau_bs tau_es tau_fs tau_gs tau_hs alpha_cs alpha_ds flag.
Let dGE_dT x T := NRTL_dGE_dT N T x tau_as tau_bs tau_es tau_fs tau_gs tau_hs alpha_cs alpha_ds flag.
Let d2GE_dT2 x T := NRTL_d2GE_dT2 N T x tau_as tau_bs tau_es tau_fs tau_gs tau_hs alpha_cs alpha_ds flag.
Let taus i j T := NRTL_taus N T tau_as tau_bs tau_es tau_fs tau_gs tau_hs i j.
Let alphas i j T := NRTL_alphas N T alpha_cs alpha_ds flag i j.
Let Gs i j T := NRTL_Gs N T tau_as tau_bs tau_es tau_fs tau_gs tau_hs alpha_cs alpha_ds flag i j.

(* GE is the NRTL excess Gibbs energy with the documented parameter forms *)
Theorem C18_NRTL_GE_form x T : 0 < T ->
  GE x T = nrtl_GE_form N x (fun i j => nrtl_G_form (alpha_cs i j) (alpha_ds i j) (nrtl_tau_form (tau_as i j) (tau_bs i j) (tau_es i j) (tau_fs i j) (tau_gs i j) (tau_hs i j) T) T)
                            (fun i j => nrtl_tau_form (tau_as i j) (tau_bs i j) (tau_es i j) (tau_fs i j) (tau_gs i j) (tau_hs i j) T) (Rgas * T).
Proof.
  intros HT. unfold GE, flag. rewrite GE_eq by auto. unfold nrtl_GE_form, SE. f_equal. apply rsum_ext. intros i Hi. f_equal. unfold SA, SB. f_equal; apply rsum_ext; intros; unfold Gf, tauf; ring.
Qed.
Theorem C18_NRTL_dGE_dT x T : 0 < T -> amounts N x -> is_derive (GE x) T (dGE_dT x T).
Proof. intros. now apply GE_T. Qed.
Theorem C18_NRTL_d2GE_dT2 x T : 0 < T -> amounts N x -> second_derive (GE x) T (d2GE_dT2 x T).
Proof. intros HT Hx. exists (dGE_dT x). split. apply pos_loc; auto. intros; now apply GE_T. now apply dGE_T. Qed.
Theorem C18_NRTL_taus i j T : (i < N)%nat -> (j < N)%nat -> 0 < T ->
  taus i j T = nrtl_tau_form (tau_as i j) (tau_bs i j) (tau_es i j) (tau_fs i j) (tau_gs i j) (tau_hs i j) T /\
  is_derive (taus i j) T (NRTL_dtaus_dT N T tau_bs tau_es tau_fs tau_gs tau_hs i j) /\
  second_derive (taus i j) T (NRTL_d2taus_dT2 N T tau_bs tau_es tau_gs tau_hs i j) /\
  third_derive (taus i j) T (NRTL_d3taus_dT3 N T tau_bs tau_es tau_gs i j).
Proof.
  intros Hi Hj HT.
  assert (D1 : forall t, 0 < t -> is_derive (taus i j) t (dtauf tau_bs tau_es tau_fs tau_gs tau_hs i j t)).
  { intros t Ht. eapply is_derive_ext_loc. 2: apply (tauf_d tau_as tau_bs tau_es tau_fs tau_gs tau_hs i j t Ht). apply pos_loc; auto. intros s Hs. unfold taus. now rewrite taus_eq. }
  splits.
  - apply (taus_eq N tau_as tau_bs tau_es tau_fs tau_gs tau_hs i j Hi Hj T HT).
  - rewrite dtaus_eq by auto. auto.
  - eexists. split. apply pos_loc; [auto|exact D1]. rewrite d2taus_eq by auto. now apply dtauf_d.
  - eexists. eexists. splits. apply pos_loc; [auto|exact D1]. apply pos_loc; [auto|]. intros t Ht. now apply (dtauf_d tau_bs tau_es tau_fs tau_gs tau_hs i j t Ht).
    rewrite d3taus_eq by auto. now apply d2tauf_d.
Qed.
Theorem C18_NRTL_alphas i j T : (i < N)%nat -> (j < N)%nat ->
  alphas i j T = alpha_cs i j + alpha_ds i j * T /\ is_derive (alphas i j) T (NRTL_dalphas_dT alpha_ds i j).
Proof.
  intros Hi Hj. split. now apply alphas_eq. apply (is_derive_ext (fun t => alpha_cs i j + alpha_ds i j * t)). { intros t. symmetry. now apply alphas_eq. }
  unfold NRTL_dalphas_dT. auto_derive; auto. ring.
Qed.
Theorem C18_NRTL_Gs i j T : (i < N)%nat -> (j < N)%nat -> 0 < T ->
  Gs i j T = exp (- (alphas i j T) * taus i j T) /\
  is_derive (Gs i j) T (NRTL_dGs_dT N T tau_as tau_bs tau_es tau_fs tau_gs tau_hs alpha_cs alpha_ds flag i j) /\
  second_derive (Gs i j) T (NRTL_d2Gs_dT2 N T tau_as tau_bs tau_es tau_fs tau_gs tau_hs alpha_cs alpha_ds flag i j) /\
  third_derive (Gs i j) T (NRTL_d3Gs_dT3 N T tau_as tau_bs tau_es tau_fs tau_gs tau_hs alpha_cs alpha_ds flag i j).
Proof.
  intros Hi Hj HT.
  assert (D1 : forall t, 0 < t -> is_derive (Gs i j) t (dGf tau_as tau_bs tau_es tau_fs tau_gs tau_hs alpha_cs alpha_ds i j t)).
  { intros t Ht. eapply is_derive_ext_loc. 2: apply (Gf_d tau_as tau_bs tau_es tau_fs tau_gs tau_hs alpha_cs alpha_ds i j t Ht). apply pos_loc; auto. intros s Hs. unfold Gs, flag. now rewrite Gs_eq. }
  splits.
  - unfold Gs, alphas, taus, flag. rewrite Gs_eq, alphas_eq, taus_eq by auto. reflexivity.
  - unfold flag. rewrite dGs_eq by auto. auto.
  - eexists. split. apply pos_loc; [auto|exact D1]. unfold flag. rewrite d2Gs_eq by auto. now apply dGf_d.
  - eexists. eexists. splits. apply pos_loc; [auto|exact D1]. apply pos_loc; [auto|]. intros t Ht. now apply (dGf_d tau_as tau_bs tau_es tau_fs tau_gs tau_hs alpha_cs alpha_ds i j t Ht).
    unfold flag. rewrite d3Gs_eq by auto. now apply d2Gf_d.
Qed.
End Statements.
(* the constructor's flag says exactly that every alpha_ds entry is zero *)
Theorem C18_alpha_flag N alpha_ds : NRTL_alpha_temperature_independent N alpha_ds = true <-> forall i j, (i < N)%nat -> (j < N)%nat -> alpha_ds i j = 0.
Proof.
  pose proof (ati_spec N alpha_ds) as H. destruct (NRTL_alpha_temperature_independent N alpha_ds). tauto. split; [discriminate|]. intros K. destruct H as (i & j & Hi & Hj & Hn). elim Hn; auto.
Qed.
Example C18_hypotheses_met : amounts 3 (fun i => match i with O => 0 | 1%nat => 1 / 4 | _ => 3 / 4 end) /\ 0 < 300.
Proof. unfold amounts. splits. intros i Hi. destruct i as [|[|[|]]]; lra || lia. simpl. lra. lra. Qed.
