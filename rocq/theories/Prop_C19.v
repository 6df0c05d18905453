(* C19: composition derivatives and activity coefficients of NRTL. *)
From Coq Require Import Reals Lra Lia Arith Bool FunctionalExtensionality.
From Coquelicot Require Import Coquelicot.
From Verif Require Import Base BaseFacts Spec_mix Spec_activity MixFacts MixDeriv LnphiFacts Gen_nrtl NrtlFacts Prop_C18.
Open Scope R_scope.

Lemma loop2 n (f1 f2 : nat -> R) u v : loop n (fun j (st : (R * R)%type) => let '(s1, s2) := st in (s1 + f1 j, s2 + f2 j)) (u, v) = (u + rsum n f1, v + rsum n f2).
Proof. induction n. cbn [loop rsum]. now rewrite !Rplus_0_r. cbn [loop rsum]. rewrite IHn. now rewrite !Rplus_assoc. Qed.
Lemma loop3 n (f1 f2 f3 : nat -> R) u v w : loop n (fun j (st : (R * R * R)%type) => let '(s1, s2, s3) := st in (s1 + f1 j, s2 + f2 j, s3 + f3 j)) (u, v, w) = (u + rsum n f1, v + rsum n f2, w + rsum n f3).
Proof. induction n. cbn [loop rsum]. now rewrite !Rplus_0_r. cbn [loop rsum]. rewrite IHn. now rewrite !Rplus_assoc. Qed.
Lemma loop_upd2 {A B} n (f : nat -> A) (g : nat -> B) u v : loop n (fun j s => (upd (fst s) j (f j), upd (snd s) j (g j))) (u, v) = (loop n (fun j o => upd o j (f j)) u, loop n (fun j o => upd o j (g j)) v).
Proof. induction n; auto. cbn [loop]. rewrite IHn. reflexivity. Qed.
Lemma total_homog n F x : (forall y, rsum n y <> 0 -> amounts n (fractions n y) -> amounts n y -> F (fractions n y) = F y / rsum n y) -> amounts n x -> total_GE n F x = F x.
Proof. intros H Hx. unfold total_GE. destruct Hx as [H0 H1]. rewrite H. field. lra. lra. 2: now split.
  split. intros. unfold fractions. apply Rmult_le_pos; auto. left; now apply Rinv_0_lt_compat. unfold fractions, Rdiv. rewrite rsum_scal_r. rewrite Rinv_r by lra. lra. Qed.
(* the gradient of total_GE from the gradient of a homogeneous extension *)
Lemma total_partial n (F H : (nat -> R) -> R) x i v : near n x (fun y => total_GE n F y = H y) -> (i < n)%nat -> partial H x i v -> partial (total_GE n F) x i v.
Proof.
  intros (eps & He & K) Hi P. unfold partial in *. eapply is_derive_ext_loc. 2: exact P.
  exists (mkposreal eps He). intros t Ht. symmetry. apply K. intros k Hk. unfold upd. destruct (Nat.eqb_spec k i) as [->|]. exact Ht. unfold Rminus. rewrite Rplus_opp_r, Rabs_R0. auto.
Qed.

Section NRTL.
Context (N : nat) (a b e f g h c d : nat -> nat -> R).
Notation ati := (NRTL_alpha_temperature_independent N d).
Notation GG T := (fun j i => Gf a b e f g h c d j i T). Notation TT T := (fun j i => tauf a b e f g h j i T).
Section At.
Context (x : nat -> R) (T : R) (HT : 0 < T).
Lemma dx_eq k : (k < N)%nat -> NRTL_dGE_dxs N T x a b e f g h c d ati k = Rgas * T * Sg N x (GG T) (TT T) k.
Proof.
  intros Hk. unfold NRTL_dGE_dxs, nrtl_dGE_dxs. entries. rewrite xGtau_eq, inv_eq by auto. unfold Sg. rewrite Rmult_comm. f_equal. f_equal. apply rsum_ext. intros i Hi. rewrite xGtau_eq, inv_eq, Gs_eq, taus_eq by auto. unfold Rdiv. ring.
Qed.
Lemma gam_eq k : (k < N)%nat -> NRTL_gammas N T x a b e f g h c d ati k = exp (Sg N x (GG T) (TT T) k).
Proof.
  intros Hk. unfold NRTL_gammas, nrtl_gammas. entries. f_equal. unfold Sg. rewrite xGtau_eq, inv_eq by auto. f_equal. apply rsum_ext. intros i Hi. entries. rewrite xGtau_eq, inv_eq, Gs_eq, taus_eq by auto. unfold Rdiv. ring.
Qed.
Lemma d2x_eq i j : (i < N)%nat -> (j < N)%nat -> (forall i, (i < N)%nat -> SA N x (GG T) i <> 0) -> NRTL_d2GE_dxixjs N T x a b e f g h c d ati i j = Rgas * T * Shess N x (GG T) (TT T) i j.
Proof.
  intros Hi Hj HA. unfold NRTL_d2GE_dxixjs, nrtl_d2GE_dxixjs. entries. rewrite !xGtau_eq, !inv_eq, !Gs_eq, !taus_eq by auto.
  rewrite (rsum_ext N _ (fun k => 2 * x k / SA N x (GG T) k ^ 2 * GG T i k * GG T j k * (SB N x (GG T) (TT T) k / SA N x (GG T) k))).
  2:{ intros k Hk. rewrite !xGtau_eq, !inv_eq, !Gs_eq by auto. pose proof (HA k Hk). field. auto. }
  rewrite (rsum_ext N (fun k => x k * NRTL_Gs N T a b e f g h c d ati i k * _ * _ * _ * _) (fun k => x k / SA N x (GG T) k ^ 2 * GG T i k * GG T j k * (TT T i k + TT T j k))).
  2:{ intros k Hk. rewrite !inv_eq, !Gs_eq, !taus_eq by auto. pose proof (HA k Hk). field. auto. }
  unfold Shess. rewrite (rsum_ext N (fun k => x k / _ * _ * _ * (_ - 2 * _)) (fun k => x k / SA N x (GG T) k ^ 2 * GG T i k * GG T j k * (TT T i k + TT T j k) - 2 * x k / SA N x (GG T) k ^ 2 * GG T i k * GG T j k * (SB N x (GG T) (TT T) k / SA N x (GG T) k))).
  2:{ intros k Hk. pose proof (HA k Hk). field. auto. }
  rewrite rsum_minus. pose proof (HA i Hi). pose proof (HA j Hj). field. auto.
Qed.
End At.
Lemma GE_partial x T k : 0 < T -> (k < N)%nat -> (forall i, (i < N)%nat -> SA N x (GG T) i <> 0) -> partial (fun y => NRTL_GE N T y a b e f g h c d ati) x k (NRTL_dGE_dxs N T x a b e f g h c d ati k).
Proof.
  intros HT Hk HA. rewrite dx_eq by auto. apply (partial_ext (fun y => Rgas * T * SE N y (GG T) (TT T))). { intros y. now rewrite GE_eq. } apply partial_scal. now apply SE_partial.
Qed.
Lemma amounts_SA x T : amounts N x -> forall i, (i < N)%nat -> SA N x (GG T) i <> 0.
Proof. intros Hx i Hi. apply Rgt_not_eq. now apply SA_pos. Qed.
Lemma GE_partial2 x T i j : 0 < T -> (i < N)%nat -> (j < N)%nat -> amounts N x -> second_partial N (fun y => NRTL_GE N T y a b e f g h c d ati) x i j (NRTL_d2GE_dxixjs N T x a b e f g h c d ati i j).
Proof.
  intros HT Hi Hj Hx. pose proof (amounts_SA x T Hx) as HA. exists (fun y => NRTL_dGE_dxs N T y a b e f g h c d ati i). split.
  - eapply near_impl. 2: apply (near_SA N x (GG T) HA). intros y Hy. now apply GE_partial.
  - rewrite d2x_eq by auto. apply (partial_ext (fun y => Rgas * T * Sg N y (GG T) (TT T) i)). { intros y. now rewrite dx_eq. } apply partial_scal. now apply Sg_partial.
Qed.
Lemma Sg_T x T k : 0 < T -> (k < N)%nat -> amounts N x -> is_derive (fun t => NRTL_dGE_dxs N t x a b e f g h c d ati k) T (NRTL_d2GE_dTdxs N T x a b e f g h c d ati k).
Proof.
  intros HT Hk Hx. pose proof (amounts_SA x T Hx) as HA.
  apply (is_derive_ext_loc (fun t => Rgas * (t * Sg N x (GG t) (TT t) k))). { apply pos_loc; auto. intros t Ht. rewrite dx_eq by auto. chR. ring. }
  pose proof (Sg_curve N (fun j _ => x j) (Gf a b e f g h c d) (tauf a b e f g h) T (fun _ => 0) (fun j i => dGf a b e f g h c d j i T) (fun j i => dtauf b e f g h j i T)
     (fun i _ => is_derive_const (x i) T) (fun i j _ _ => Gf_d _ _ _ _ _ _ _ _ i j T HT) (fun i j _ _ => tauf_d _ _ _ _ _ _ i j T HT) k Hk HA) as D.
  cbv beta in D. change (fun j => x j) with x in D.
  set (fs := fun t : R => Sg N x (GG t) (TT t) k) in *. match type of D with is_derive _ _ ?l => set (l0 := l) in * end.
  change (is_derive fs T l0) in D. change (is_derive (fun t : R => Rgas * (t * fs t)) T (NRTL_d2GE_dTdxs N T x a b e f g h c d ati k)).
  assert (is_derive (fun t : R => Rgas * (t * fs t)) T (Rgas * (T * l0 + fs T))) as D2. { clearbody fs l0. auto_derive. exd. dv D. chR. ring. }
  eapply is_derive_eq. exact D2. clear D2.
  (* the formula of the code *)
  unfold l0, fs. clear D. clearbody fs. clear l0. 
  assert (EA : forall i, dSA N (fun j (_ : R) => x j) (Gf a b e f g h c d) T (fun _ => 0) (fun j i => dGf a b e f g h c d j i T) i = SA N x (fun j i => dGf a b e f g h c d j i T) i).
  { intros i. unfold dSA, SA. apply rsum_ext. intros; ring. }
  assert (EB : forall i, dSB N (fun j (_ : R) => x j) (Gf a b e f g h c d) (tauf a b e f g h) T (fun _ => 0) (fun j i => dGf a b e f g h c d j i T) (fun j i => dtauf b e f g h j i T) i = SB N x (fun j i => dGf a b e f g h c d j i T) (TT T) i + SB N x (GG T) (fun j i => dtauf b e f g h j i T) i).
  { intros i. unfold dSB, SB. rewrite <- rsum_plus. apply rsum_ext. intros; ring. }
  unfold NRTL_d2GE_dTdxs, nrtl_d2GE_dTdxs. cbv zeta.
  set (A_ := SA N x (GG T)). set (B_ := SB N x (GG T) (TT T)). set (A1_ := SA N x (fun j i => dGf a b e f g h c d j i T)). set (B1_ := fun j => SB N x (fun j i => dGf a b e f g h c d j i T) (TT T) j + SB N x (GG T) (fun j i => dtauf b e f g h j i T) j).
  set (u := fun k => / A_ k * (A1_ k * (B_ k / A_ k) - B1_ k)). set (v := fun k => B_ k / A_ k).
  set (p := fun k j => ((B_ j / A_ j) * dGf a b e f g h c d k j T + Gf a b e f g h c d k j T / A_ j * (A1_ j * (tauf a b e f g h k j T - 2 * (B_ j / A_ j)) + B1_ j)
       - (Gf a b e f g h c d k j T * dtauf b e f g h k j T + tauf a b e f g h k j T * dGf a b e f g h c d k j T)) * (x j / A_ j)).
  set (q := fun k j => x j / A_ j * Gf a b e f g h c d k j T * (tauf a b e f g h k j T - B_ j / A_ j)).
  match goal with |- _ = loop N ?st ?w k => rewrite (loop_fill N st (fun k => - Rgas * (T * (u k + rsum N (p k)) - (v k + rsum N (q k)))) w k Hk) end.
  2:{ intros i o Hi. rewrite !(loop_upd_lt N) by auto.
    match goal with |- context [loop N ?st (?u, ?v)] => rewrite (loop_ext N st (fun j (st2 : (R * R)%type) => let '(s1, s2) := st2 in (s1 + p i j, s2 + q i j))) end.
    2:{ intros j [s1 s2] Hj. rewrite !(loop_upd_lt N) by auto. rewrite !xGtau_eq, !inv_eq, !xdG_eq, !xtaudG_eq, !xGdtau_eq, !dGs_eq, !Gs_eq, !dtaus_eq, !taus_eq by auto. pose proof (HA j Hj). unfold p, q, A_, B_, A1_, B1_. apply f_equal2; field; auto. }
    rewrite loop2. rewrite !xGtau_eq, !inv_eq, !xdG_eq, !xtaudG_eq, !xGdtau_eq by auto. f_equal. f_equal. f_equal; [f_equal; f_equal|f_equal]; unfold u, v, A_, B_, A1_, B1_, Rdiv; ring. }
  unfold u, v, p, q. fold A_ in HA. rewrite EA, EB. fold A1_. fold (B1_ k).
  unfold Sg. fold A_ B_.
  match goal with |- Rgas * (T * (?A1 + rsum N ?F1) + (?A2 + rsum N ?F2)) = - Rgas * (T * (?A3 + rsum N ?F3) - (?A4 + rsum N ?F4)) =>
assert (A1 = - A3) as E1; [|assert (rsum N F1 = - rsum N F3) as E2; [|rewrite E1, E2; ring]] end.
  - fold B_ A_. pose proof (HA k Hk). field. auto.
  - rewrite <- rsum_opp. apply rsum_ext. intros j Hj. rewrite EA, EB. fold A1_ B_ A_. fold (B1_ j). pose proof (HA j Hj). field. auto.
Qed.
End NRTL.

(* ---- statements: the class ---- *)
Section Statements.
Variables (N : nat) (tau_as tau_bs tau_es tau_fs tau_gs tau_hs alpha_cs alpha_ds : nat -> nat -> R).
Let flag := NRTL_alpha_temperature_independent N alpha_ds.
Let GE T x := NRTL_GE N T x tau_as tau_bs tau_es tau_fs tau_gs tau_hs alpha_cs alpha_ds flag.
Let dGE_dxs T x := NRTL_dGE_dxs N T x tau_as tau_bs tau_es tau_fs tau_gs tau_hs alpha_cs alpha_ds flag.
Let d2GE_dxixjs T x := NRTL_d2GE_dxixjs N T x tau_as tau_bs tau_es tau_fs tau_gs tau_hs alpha_cs alpha_ds flag.
Let d2GE_dTdxs T x := NRTL_d2GE_dTdxs N T x tau_as tau_bs tau_es tau_fs tau_gs tau_hs alpha_cs alpha_ds flag.
Let gammas T x := NRTL_gammas N T x tau_as tau_bs tau_es tau_fs tau_gs tau_hs alpha_cs alpha_ds flag.
Theorem C19_NRTL_dGE_dxs x T i : 0 < T -> amounts N x -> (i < N)%nat -> partial (GE T) x i (dGE_dxs T x i).
Proof. intros. apply GE_partial; auto. now apply amounts_SA. Qed.
Theorem C19_NRTL_d2GE_dxixjs x T i j : 0 < T -> amounts N x -> (i < N)%nat -> (j < N)%nat -> second_partial N (GE T) x i j (d2GE_dxixjs T x i j).
Proof. intros. now apply GE_partial2. Qed.
Theorem C19_NRTL_d2GE_dTdxs x T i : 0 < T -> amounts N x -> (i < N)%nat -> mixed_partial GE T x i (d2GE_dTdxs T x i).
Proof. intros HT Hx Hi. exists (fun t => dGE_dxs t x i). split. apply pos_loc; auto. intros t Ht. now apply C19_NRTL_dGE_dxs. now apply Sg_T. Qed.
Theorem C19_NRTL_GE_sum x T : 0 < T -> amounts N x -> GE T x = Rgas * T * rsum N (fun i => x i * ln (gammas T x i)).
Proof.
  intros HT Hx. unfold GE, flag. rewrite GE_eq by auto. f_equal. rewrite <- Sg_sum. 2: intros; now apply amounts_SA.
  apply rsum_ext. intros. unfold gammas, flag. rewrite gam_eq by auto. now rewrite ln_exp.
Qed.
Theorem C19_NRTL_gammas_positive x T i : 0 < T -> (i < N)%nat -> 0 < gammas T x i.
Proof. intros. unfold gammas, flag. rewrite gam_eq by auto. apply exp_pos. Qed.
Theorem C19_NRTL_ln_gamma ns T i : 0 < T -> amounts N ns -> (i < N)%nat -> is_ln_gamma N (GE T) (Rgas * T) ns i (ln (gammas T (fractions N ns) i)).
Proof.
  intros HT Hx Hi. unfold is_ln_gamma, gammas, flag. rewrite gam_eq, ln_exp by auto. pose proof Hx as [H0 H1].
  pose proof (fun j Hj => amounts_SA N tau_as tau_bs tau_es tau_fs tau_gs tau_hs alpha_cs alpha_ds ns T Hx j Hj) as HA.
  rewrite (Sg_scal N (/ rsum N ns) ns) ; auto. 2: apply Rinv_neq_0_compat; lra.
  apply (total_partial N (GE T) (fun y => Rgas * T * SE N y (fun j i => Gf tau_as tau_bs tau_es tau_fs tau_gs tau_hs alpha_cs alpha_ds j i T) (fun j i => tauf tau_as tau_bs tau_es tau_fs tau_gs tau_hs j i T))); auto.
  - assert (near N ns (fun y => rsum N (fun j => y j * 1) <> 0)) as Hs. { apply near_lin. rewrite (rsum_ext N _ ns) by (intros; ring). lra. }
    eapply near_impl. 2: apply (near_and _ _ _ _ Hs (near_SA N ns _ HA)). intros y [Hy1 Hy2]. rewrite (rsum_ext N _ y) in Hy1 by (intros; ring).
    unfold total_GE, GE, flag. rewrite GE_eq by auto. change (fractions N y) with (fun j => y j * / rsum N y). rewrite SE_scal; auto. field; auto. apply Rinv_neq_0_compat; auto.
  - apply partial_scal. now apply SE_partial.
Qed.
End Statements.

(* ---- the stand-alone functions ---- *)
Lemma loop_upd_self {A} n (f : nat -> A -> A) o k : (k < n)%nat -> loop n (fun i o => upd o i (f i (o i))) o k = f k (o k).
Proof.
  intros Hk. assert (forall m, loop m (fun i o => upd o i (f i (o i))) o k = if (k <? m)%nat then f k (o k) else o k) as H.
  { clear Hk. intros m. assert (forall k, loop m (fun i o => upd o i (f i (o i))) o k = if (k <? m)%nat then f k (o k) else o k) as H; auto.
    induction m; intros q. reflexivity. cbn [loop]. unfold upd at 1. rewrite !IHm. destruct (Nat.eqb_spec q m), (Nat.ltb_spec q m), (Nat.ltb_spec q (S m)), (Nat.ltb_spec m m); subst; try lia; auto. }
  rewrite H. now rewrite ltb_lt'.
Qed.
Lemma nrtl_gammas_eq x N Gs taus inv xgt g0 v0 v1 i : (i < N)%nat -> nrtl_gammas x N Gs taus inv xgt g0 v0 v1 i = exp (xgt i * inv i + rsum N (fun j => x j * inv j * Gs i j * (taus i j - xgt j * inv j))).
Proof. intros Hi. unfold nrtl_gammas. entries. f_equal. f_equal. apply rsum_ext. intros. entries. reflexivity. Qed.
(* NRTL.gammas_from_args with the lists made by NRTL.gammas_args (thermo/nrtl.py, lines 580-605) returns NRTL.gammas, whatever
   the four work lists and the output list contain *)
Theorem C19_gammas_from_args N T x a b e f g h c d w1 w2 w3 w4 g0 i : (i < N)%nat ->
  let flag := NRTL_alpha_temperature_independent N d in
  nrtl_gammas_from_args x N (NRTL_Gs N T a b e f g h c d flag) (NRTL_taus N T a b e f g h) (NRTL_Gs_transposed N T a b e f g h c d flag)
    (NRTL_Gs_taus_transposed N T a b e f g h c d flag) (NRTL_Gs_taus N T a b e f g h c d flag) w1 w2 w3 w4 g0 i = NRTL_gammas N T x a b e f g h c d flag i.
Proof.
  intros Hi flag. unfold nrtl_gammas_from_args, NRTL_gammas, nrtl_xj_Gs_jis_and_Gs_taus_jis. cbv zeta.
  rewrite !nrtl_gammas_eq by auto. f_equal.
  assert (E : forall j, (j < N)%nat -> loop N (fun i o => upd o i (1 / o i)) (loop N (fun i o => upd o i (loop N (fun j t => t + x j * NRTL_Gs_transposed N T a b e f g h c d flag i j) 0)) w1) j = NRTL_xj_Gs_jis_inv N T x a b e f g h c d flag j).
  { intros j Hj. rewrite (loop_upd_self N (fun i v => 1 / v)) by auto. rewrite (loop_upd_lt N) by auto. unfold NRTL_xj_Gs_jis_inv, NRTL_xj_Gs_jis, nrtl_xj_Gs_jis_and_Gs_taus_jis. cbv zeta. rewrite (loop_upd_lt N) by auto. reflexivity. }
  assert (E2 : forall j, (j < N)%nat -> loop N (fun i o => upd o i (loop N (fun j t => t + x j * NRTL_Gs_taus_transposed N T a b e f g h c d flag i j) 0)) w2 j = NRTL_xj_Gs_taus_jis N T x a b e f g h c d flag j).
  { intros j Hj. rewrite (loop_upd_lt N) by auto. unfold NRTL_xj_Gs_taus_jis, nrtl_xj_Gs_jis_and_Gs_taus_jis. cbv zeta. rewrite (loop_upd_lt N) by auto. reflexivity. }
  rewrite E, E2 by auto. f_equal. apply rsum_ext. intros j Hj. rewrite E, E2 by auto. reflexivity.
Qed.
Definition fGs (taus alphas : nat -> nat -> R) i j := exp (- alphas i j * taus i j).
Lemma fun_eq x taus alphas N i : (i < N)%nat -> NRTL_gammas_function x taus alphas N i = exp (Sg N x (fGs taus alphas) taus i).
Proof.
  intros Hi. unfold NRTL_gammas_function. cbv zeta.
  set (Gs := loop N (fun i o => updrow o i (fun j => exp (- alphas i j * taus i j))) (fun _ _ => 0)).
  assert (EG : forall k j, (k < N)%nat -> Gs k j = fGs taus alphas k j). { intros k j Hk. unfold Gs. change @updrow with (fun A => @upd (nat -> A)). cbv beta. rewrite (loop_upd_lt N (fun i j => exp (- alphas i j * taus i j))) by auto. reflexivity. }
  assert (ES : loop N (fun j (st_ : ((nat -> R) * (nat -> R))%type) => let '(td2s, tn3s) := st_ in
     let '(td2, tn3) := loop N (fun k (st_ : (R * R)%type) => let '(td2, tn3) := st_ in (td2 + x k * Gs k j, tn3 + x k * Gs k j * taus k j)) (0, 0) in
       (upd td2s j (1 / td2 * x j), upd tn3s j (tn3 * (1 / td2) * (1 / td2 * x j)))) (fun _ => 0, fun _ => 0)
    = (loop N (fun j o => upd o j (1 / SA N x (fGs taus alphas) j * x j)) (fun _ => 0), loop N (fun j o => upd o j (SB N x (fGs taus alphas) taus j * (1 / SA N x (fGs taus alphas) j) * (1 / SA N x (fGs taus alphas) j * x j))) (fun _ => 0))).
  { match goal with |- loop N ?st _ = _ => rewrite (loop_ext N st (fun j s => (upd (fst s) j (1 / SA N x (fGs taus alphas) j * x j), upd (snd s) j (SB N x (fGs taus alphas) taus j * (1 / SA N x (fGs taus alphas) j) * (1 / SA N x (fGs taus alphas) j * x j))))) end.
    - apply loop_upd2.
    - intros j [s1 s2] Hj. rewrite loop2. cbn [fst snd]. rewrite !Rplus_0_l.
      rewrite (rsum_ext N (fun k => x k * Gs k j) (fun k => x k * fGs taus alphas k j)) by (intros; now rewrite EG). rewrite (rsum_ext N (fun k => x k * Gs k j * taus k j) (fun k => x k * fGs taus alphas k j * taus k j)) by (intros; now rewrite EG). reflexivity. }
  rewrite ES. clear ES.
  match goal with |- loop N ?st ?w i = _ => rewrite (loop_fill N st (fun i => exp (Sg N x (fGs taus alphas) taus i)) w i Hi) end; auto.
  intros k o Hk. rewrite loop3. rewrite !Rplus_0_l. f_equal. f_equal. unfold Sg, SA at 1, SB at 1.
  rewrite (rsum_ext N (fun j => x j * Gs j k * taus j k) (fun j => x j * fGs taus alphas j k * taus j k)) by (intros; now rewrite EG). rewrite (rsum_ext N (fun j => x j * Gs j k) (fun j => x j * fGs taus alphas j k)) by (intros; now rewrite EG). f_equal.
  apply rsum_ext. intros j Hj. rewrite !(loop_upd_lt N) by auto. rewrite EG by auto. unfold SA, SB, Rdiv. ring.
Qed.
(* the stand-alone function NRTL_gammas agrees with the class at the same taus and alphas *)
Theorem C19_NRTL_gammas_function N T x a b e f g h c d i : 0 < T -> (i < N)%nat ->
  let flag := NRTL_alpha_temperature_independent N d in
  NRTL_gammas_function x (NRTL_taus N T a b e f g h) (NRTL_alphas N T c d flag) N i = NRTL_gammas N T x a b e f g h c d flag i.
Proof.
  intros HT Hi flag. unfold flag. rewrite fun_eq, gam_eq by auto. f_equal.
  assert (EG : forall j i, (j < N)%nat -> (i < N)%nat -> fGs (NRTL_taus N T a b e f g h) (NRTL_alphas N T c d (NRTL_alpha_temperature_independent N d)) j i = Gf a b e f g h c d j i T).
  { intros. unfold fGs. rewrite taus_eq, alphas_eq by auto. reflexivity. }
  unfold Sg. assert (EA : forall i, (i < N)%nat -> SA N x (fGs (NRTL_taus N T a b e f g h) (NRTL_alphas N T c d (NRTL_alpha_temperature_independent N d))) i = SA N x (fun j i => Gf a b e f g h c d j i T) i) by (intros; apply rsum_ext; intros; now rewrite EG).
  assert (EB : forall i, (i < N)%nat -> SB N x (fGs (NRTL_taus N T a b e f g h) (NRTL_alphas N T c d (NRTL_alpha_temperature_independent N d))) (NRTL_taus N T a b e f g h) i = SB N x (fun j i => Gf a b e f g h c d j i T) (fun j i => tauf a b e f g h j i T) i) by (intros; apply rsum_ext; intros; rewrite EG, taus_eq by auto; auto).
  rewrite EA, EB by auto. f_equal. apply rsum_ext. intros j Hj. rewrite EA, EB, EG, taus_eq by auto. reflexivity.
Qed.

(* ---- NRTL_gammas_binaries and its Jacobian ---- *)
Definition pair2 (u v : R) : nat -> R := fun k => match k with O => u | _ => v end.
Definition cross2 (u v : R) : nat -> nat -> R := fun i j => match i, j with O, S O => u | S O, O => v | _, _ => 0 end.
Definition bg0 x0 t01 t10 a01 a10 := exp ((1 - x0) * (1 - x0) * (exp (- a10 * t10) * exp (- a10 * t10) * t10 * (1 / (x0 + (1 - x0) * exp (- a10 * t10)) * (1 / (x0 + (1 - x0) * exp (- a10 * t10)))) + exp (- a01 * t01) * t01 * (1 / (1 - x0 + x0 * exp (- a01 * t01)) * (1 / (1 - x0 + x0 * exp (- a01 * t01)))))).
Definition bg1 x0 t01 t10 a01 a10 := exp (x0 * x0 * (exp (- a01 * t01) * exp (- a01 * t01) * t01 * (1 / (1 - x0 + x0 * exp (- a01 * t01)) * (1 / (1 - x0 + x0 * exp (- a01 * t01)))) + exp (- a10 * t10) * t10 * (1 / (x0 + (1 - x0) * exp (- a10 * t10)) * (1 / (x0 + (1 - x0) * exp (- a10 * t10)))))).
Lemma loop_pairs (f g : nat -> R) n o k : (k < n)%nat -> loop n (fun i o => upd (upd o (i * 2)%nat (f i)) (i * 2 + 1)%nat (g i)) o (k * 2)%nat = f k /\ loop n (fun i o => upd (upd o (i * 2)%nat (f i)) (i * 2 + 1)%nat (g i)) o (k * 2 + 1)%nat = g k.
Proof.
  induction n; intros H. lia. cbn [loop]. unfold upd at 1 2 5 6. destruct (Nat.eq_dec k n) as [->|Hn].
  - rewrite !Nat.eqb_refl. destruct (Nat.eqb_spec (n * 2) (n * 2 + 1)); try lia. auto.
  - destruct (Nat.eqb_spec (k * 2) (n * 2 + 1)), (Nat.eqb_spec (k * 2) (n * 2)), (Nat.eqb_spec (k * 2 + 1) (n * 2 + 1)), (Nat.eqb_spec (k * 2 + 1) (n * 2)); try lia. apply IHn. lia.
Qed.
Definition unclipped t01 t10 a01 a10 := MIN_TAU_NRTL <= t01 /\ MIN_TAU_NRTL <= t10 /\ MIN_ALPHA_NRTL <= a01 /\ MIN_ALPHA_NRTL <= a10.
Lemma bin_eq xs t01 t10 a01 a10 buf pts k : unclipped t01 t10 a01 a10 -> (k < pts)%nat ->
  NRTL_gammas_binaries xs t01 t10 a01 a10 buf pts (k * 2)%nat = bg0 (xs (k * 2)%nat) t01 t10 a01 a10 /\ NRTL_gammas_binaries xs t01 t10 a01 a10 buf pts (k * 2 + 1)%nat = bg1 (xs (k * 2)%nat) t01 t10 a01 a10.
Proof.
  intros (H1 & H2 & H3 & H4) Hk. unfold NRTL_gammas_binaries. cbv zeta. rewrite !Rltb_false by auto.
  apply (loop_pairs (fun i => bg0 (xs (i * 2)%nat) t01 t10 a01 a10) (fun i => bg1 (xs (i * 2)%nat) t01 t10 a01 a10) pts buf k Hk).
Qed.
(* one point of the binary routine is the general function on two components *)
Theorem C19_NRTL_gammas_binaries xs t12 t21 a12 a21 buf pts k : unclipped t12 t21 a12 a21 -> (k < pts)%nat -> 0 <= xs (k * 2)%nat <= 1 ->
  let x := pair2 (xs (k * 2)%nat) (1 - xs (k * 2)%nat) in
  NRTL_gammas_binaries xs t12 t21 a12 a21 buf pts (k * 2)%nat = NRTL_gammas_function x (cross2 t12 t21) (cross2 a12 a21) 2 0 /\
  NRTL_gammas_binaries xs t12 t21 a12 a21 buf pts (k * 2 + 1)%nat = NRTL_gammas_function x (cross2 t12 t21) (cross2 a12 a21) 2 1.
Proof.
  intros Hc Hk Hx x. destruct (bin_eq xs t12 t21 a12 a21 buf pts k Hc Hk) as [-> ->]. rewrite !fun_eq by lia. unfold x. clear x. set (x0 := xs (k * 2)%nat) in *. clearbody x0.
  unfold Sg, SA, SB, bg0, bg1, fGs, pair2, cross2. cbn [rsum]. replace (- 0 * 0) with 0 by ring. rewrite exp_0.
  assert (0 < exp (- a12 * t12)) by apply exp_pos. assert (0 < exp (- a21 * t21)) by apply exp_pos.
  set (u := exp (- a12 * t12)) in *. set (v := exp (- a21 * t21)) in *. clearbody u v.
  assert (0 < 1 - x0 + x0 * u) by nra. assert (0 < x0 + (1 - x0) * v) by nra.
  split; f_equal; field; split; apply Rgt_not_eq; lra.
Qed.
Lemma jac_rows (f g : nat -> nat -> R) n o k c : (k < n)%nat -> (c < 4)%nat ->
  let st := fun i (o : nat -> nat -> R) => updm (updm (updm (updm (updm (updm (updm (updm o (i * 2)%nat 0%nat (f i 0%nat)) (i * 2)%nat 1%nat (f i 1%nat)) (i * 2)%nat 2%nat (f i 2%nat)) (i * 2)%nat 3%nat (f i 3%nat)) (i * 2 + 1)%nat 0%nat (g i 0%nat)) (i * 2 + 1)%nat 1%nat (g i 1%nat)) (i * 2 + 1)%nat 2%nat (g i 2%nat)) (i * 2 + 1)%nat 3%nat (g i 3%nat) in
  loop n st o (k * 2)%nat c = f k c /\ loop n st o (k * 2 + 1)%nat c = g k c.
Proof.
  intros H Hc st. induction n. lia. cbn [loop]. destruct (Nat.eq_dec k n) as [->|Hn].
  - unfold st at 1 3, updm, upd. rewrite !Nat.eqb_refl. destruct (Nat.eqb_spec (n * 2) (n * 2 + 1)); try lia. destruct c as [|[|[|[|]]]]; try lia; cbn; auto.
  - destruct IHn as [E1 E2]; try lia. set (l := loop n st o) in *. clearbody l. unfold st, updm, upd.
    destruct (Nat.eqb_spec (k * 2) (n * 2 + 1)), (Nat.eqb_spec (k * 2) (n * 2)), (Nat.eqb_spec (k * 2 + 1) (n * 2 + 1)), (Nat.eqb_spec (k * 2 + 1) (n * 2)); try lia. auto.
Qed.
Definition inner t01 t10 a01 a10 := MIN_TAU_NRTL < t01 /\ MIN_TAU_NRTL < t10 /\ MIN_ALPHA_NRTL < a01 /\ MIN_ALPHA_NRTL < a10.
Lemma open_loc m t (P : R -> Prop) : m < t -> (forall u, m < u -> P u) -> locally t P.
Proof. intros Hm H. apply (locally_interval P t (Finite m) p_infty). exact Hm. exact I. intros u Hu _. apply H. exact Hu. Qed.
(* Strictly above the limits each of the eight entries of the Jacobian of a point is the derivative of the activity coefficient
   returned for that point with respect to the parameter. *)
Theorem C19_NRTL_gammas_binaries_jac xs t12 t21 a12 a21 buf calc pts k r : inner t12 t21 a12 a21 -> (k < pts)%nat -> 0 <= xs (k * 2)%nat <= 1 -> (r = k * 2 \/ r = k * 2 + 1)%nat ->
  let J := NRTL_gammas_binaries_jac xs t12 t21 a12 a21 calc pts in
  is_derive (fun t => NRTL_gammas_binaries xs t t21 a12 a21 buf pts r) t12 (J r 0%nat) /\
  is_derive (fun t => NRTL_gammas_binaries xs t12 t a12 a21 buf pts r) t21 (J r 1%nat) /\
  is_derive (fun t => NRTL_gammas_binaries xs t12 t21 t a21 buf pts r) a12 (J r 2%nat) /\
  is_derive (fun t => NRTL_gammas_binaries xs t12 t21 a12 t buf pts r) a21 (J r 3%nat).
Proof.
  intros (H1 & H2 & H3 & H4) Hk Hx Hr J.
  assert (Ho : forall i, (i < 4)%nat -> J (k * 2)%nat i = J (k * 2)%nat i) by auto. clear Ho.
  set (x0 := xs (k * 2)%nat) in *.
  pose (E3 := exp (a12 * t12)). pose (E12 := exp (a21 * t21)).
  pose (x5 := x0 + (1 - x0) * E3). pose (x14 := 1 - x0 + x0 * E12).
  assert (P3 : 0 < E3) by apply exp_pos. assert (P12 : 0 < E12) by apply exp_pos.
  assert (P5 : 0 < x5) by (unfold x5; nra). assert (P14 : 0 < x14) by (unfold x14; nra).
  assert (EJ : forall c, (c < 4)%nat ->
     J (k * 2)%nat c = match c with
        | 0%nat => bg0 x0 t12 t21 a12 a21 * ((1 - x0) ^ 2 * (E3 / x5 ^ 2) * (1 + a12 * t12 - 2 * a12 * t12 * (1 - x0) * E3 / x5))
        | 1%nat => bg0 x0 t12 t21 a12 a21 * ((1 - x0) ^ 2 / x14 ^ 2 * (1 - 2 * a21 * t21 * x0 * E12 / x14))
        | 2%nat => bg0 x0 t12 t21 a12 a21 * ((1 - x0) ^ 2 * (E3 / x5 ^ 2) * t12 ^ 2 * (1 - 2 * (1 - x0) * E3 / x5))
        | _ => bg0 x0 t12 t21 a12 a21 * (- (1 - x0) ^ 2 * 2 * x0 * E12 * t21 ^ 2 / x14 ^ 3) end /\
     J (k * 2 + 1)%nat c = match c with
        | 0%nat => bg1 x0 t12 t21 a12 a21 * (x0 ^ 2 / x5 ^ 2 * (1 - 2 * a12 * t12 * (1 - x0) * E3 / x5))
        | 1%nat => bg1 x0 t12 t21 a12 a21 * (x0 ^ 2 * (E12 / x14 ^ 2) * (1 + a21 * t21 - 2 * a21 * t21 * x0 * E12 / x14))
        | 2%nat => bg1 x0 t12 t21 a12 a21 * (- x0 ^ 2 * 2 * (1 - x0) * E3 * t12 ^ 2 / x5 ^ 3)
        | _ => bg1 x0 t12 t21 a12 a21 * (x0 ^ 2 * (E12 / x14 ^ 2) * t21 ^ 2 * (1 - 2 * x0 * E12 / x14)) end).
  { intros c Hc. unfold J, NRTL_gammas_binaries_jac. cbv zeta. rewrite !Rltb_false by lra.
    match goal with |- loop pts ?st0 calc _ c = _ /\ _ => pose (st1 := st0) end.
    assert (B0 : bg0 x0 t12 t21 a12 a21 = exp ((1 - x0) * (1 - x0) * (t21 * (1 / x14 * (1 / x14)) + t12 * (1 / x5 * (1 / x5)) * E3))).
    { unfold bg0. f_equal. replace (- a12 * t12) with (- (a12 * t12)) by ring. replace (- a21 * t21) with (- (a21 * t21)) by ring. rewrite !exp_Ropp. fold E3 E12. replace (1 - x0 + x0 * / E3) with (x5 / E3) by (unfold x5; field; lra). replace (x0 + (1 - x0) * / E12) with (x14 / E12) by (unfold x14; field; lra). field. lra. }
    assert (B1 : bg1 x0 t12 t21 a12 a21 = exp (x0 * x0 * (E12 * (t21 * (1 / x14 * (1 / x14))) + t12 * (1 / x5 * (1 / x5))))).
    { unfold bg1. f_equal. replace (- a12 * t12) with (- (a12 * t12)) by ring. replace (- a21 * t21) with (- (a21 * t21)) by ring. rewrite !exp_Ropp. fold E3 E12. replace (1 - x0 + x0 * / E3) with (x5 / E3) by (unfold x5; field; lra). replace (x0 + (1 - x0) * / E12) with (x14 / E12) by (unfold x14; field; lra). field. lra. }
    rewrite B0, B1.
    assert (ER := jac_rows (fun i c => st1 i calc (i * 2)%nat c) (fun i c => st1 i calc (i * 2 + 1)%nat c) pts calc k c Hk Hc). cbv zeta in ER.
    assert (ES : forall i o, st1 i o = updm (updm (updm (updm (updm (updm (updm (updm o (i * 2)%nat 0%nat (st1 i calc (i * 2)%nat 0%nat)) (i * 2)%nat 1%nat (st1 i calc (i * 2)%nat 1%nat)) (i * 2)%nat 2%nat (st1 i calc (i * 2)%nat 2%nat)) (i * 2)%nat 3%nat (st1 i calc (i * 2)%nat 3%nat)) (i * 2 + 1)%nat 0%nat (st1 i calc (i * 2 + 1)%nat 0%nat)) (i * 2 + 1)%nat 1%nat (st1 i calc (i * 2 + 1)%nat 1%nat)) (i * 2 + 1)%nat 2%nat (st1 i calc (i * 2 + 1)%nat 2%nat)) (i * 2 + 1)%nat 3%nat (st1 i calc (i * 2 + 1)%nat 3%nat)).
    { intros i o. unfold st1, updm, upd. rewrite !Nat.eqb_refl. destruct (Nat.eqb_spec (i * 2) (i * 2 + 1)); try lia. destruct (Nat.eqb_spec (i * 2 + 1) (i * 2)); try lia. cbn [Nat.eqb]. reflexivity. }
    fold st1. erewrite loop_ext by (intros; apply ES). destruct ER as [-> ER]. rewrite ER. clear ER ES.
    unfold st1, updm, upd. rewrite !Nat.eqb_refl. destruct (Nat.eqb_spec (k * 2) (k * 2 + 1)); try lia. destruct (Nat.eqb_spec (k * 2 + 1) (k * 2)); try lia. fold x0 E3 E12. fold x5 x14.
    destruct c as [|[|[|[|]]]]; try lia; cbn [Nat.eqb andb]; split; field; lra. }
  assert (HB : forall t t' a a', unclipped t t' a a' -> NRTL_gammas_binaries xs t t' a a' buf pts r = if Nat.eqb r (k * 2) then bg0 x0 t t' a a' else bg1 x0 t t' a a').
  { intros t t' a a' Hu. destruct (bin_eq xs t t' a a' buf pts k Hu Hk) as [Ha Hb]. destruct Hr as [-> | ->]. now rewrite Nat.eqb_refl. destruct (Nat.eqb_spec (k * 2 + 1) (k * 2)); try lia. exact Hb. }
  assert (Q1 : 0 < exp (- a12 * t12)) by apply exp_pos. assert (Q2 : 0 < exp (- a21 * t21)) by apply exp_pos.
  assert (Q3 : 0 < 1 - x0 + x0 * exp (- a12 * t12)) by nra. assert (Q4 : 0 < x0 + (1 - x0) * exp (- a21 * t21)) by nra.
  assert (Hu : forall t t' a a', MIN_TAU_NRTL < t -> MIN_TAU_NRTL < t' -> MIN_ALPHA_NRTL < a -> MIN_ALPHA_NRTL < a' -> unclipped t t' a a') by (intros; unfold unclipped; lra).
  assert (V1 : exp (- a12 * t12) = / E3). { unfold E3. rewrite <- exp_Ropp. f_equal. ring. }
  assert (V2 : exp (- a21 * t21) = / E12). { unfold E12. rewrite <- exp_Ropp. f_equal. ring. }
  assert (V3 : 1 - x0 + x0 * exp (- a12 * t12) = x5 / E3) by (rewrite V1; unfold x5; field; lra).
  assert (V4 : x0 + (1 - x0) * exp (- a21 * t21) = x14 / E12) by (rewrite V2; unfold x14; field; lra).
  assert (D : (is_derive (fun t => bg0 x0 t t21 a12 a21) t12 (J (k * 2)%nat 0%nat) /\ is_derive (fun t => bg0 x0 t12 t a12 a21) t21 (J (k * 2)%nat 1%nat) /\ is_derive (fun t => bg0 x0 t12 t21 t a21) a12 (J (k * 2)%nat 2%nat) /\ is_derive (fun t => bg0 x0 t12 t21 a12 t) a21 (J (k * 2)%nat 3%nat)) /\
    (is_derive (fun t => bg1 x0 t t21 a12 a21) t12 (J (k * 2 + 1)%nat 0%nat) /\ is_derive (fun t => bg1 x0 t12 t a12 a21) t21 (J (k * 2 + 1)%nat 1%nat) /\ is_derive (fun t => bg1 x0 t12 t21 t a21) a12 (J (k * 2 + 1)%nat 2%nat) /\ is_derive (fun t => bg1 x0 t12 t21 a12 t) a21 (J (k * 2 + 1)%nat 3%nat))).
  { destruct (EJ 0%nat) as [-> ->]; try lia. destruct (EJ 1%nat) as [-> ->]; try lia. destruct (EJ 2%nat) as [-> ->]; try lia. destruct (EJ 3%nat) as [-> ->]; try lia. clear EJ HB. clearbody x0. clear J.
    splits; unfold bg0, bg1; auto_derive; splits; trivial; try (apply Rgt_not_eq; lra); rewrite ?V3, ?V4, ?V1, ?V2; clear -P3 P12 P5 P14; chR; unfold Rdiv; match goal with |- context [exp ((1 - x0) * (1 - x0) * ?q)] => generalize (exp ((1 - x0) * (1 - x0) * q)) | |- context [exp (x0 * x0 * ?q)] => generalize (exp (x0 * x0 * q)) end; intros; unfold x5, x14 in *; clear x5 x14; clearbody E3 E12; field; lra. }
  clear EJ. destruct D as [(D1 & D2 & D3 & D4) (D5 & D6 & D7 & D8)].
  splits.
  - apply (is_derive_ext_loc (fun u => if Nat.eqb r (k * 2) then bg0 x0 u t21 a12 a21 else bg1 x0 u t21 a12 a21)). apply (open_loc MIN_TAU_NRTL); auto. intros u Hlt. symmetry. apply HB. now apply Hu.
    destruct Hr as [-> | ->]; rewrite ?Nat.eqb_refl; try (destruct (Nat.eqb_spec (k * 2 + 1) (k * 2)); try lia); assumption.
  - apply (is_derive_ext_loc (fun u => if Nat.eqb r (k * 2) then bg0 x0 t12 u a12 a21 else bg1 x0 t12 u a12 a21)). apply (open_loc MIN_TAU_NRTL); auto. intros u Hlt. symmetry. apply HB. now apply Hu.
    destruct Hr as [-> | ->]; rewrite ?Nat.eqb_refl; try (destruct (Nat.eqb_spec (k * 2 + 1) (k * 2)); try lia); assumption.
  - apply (is_derive_ext_loc (fun u => if Nat.eqb r (k * 2) then bg0 x0 t12 t21 u a21 else bg1 x0 t12 t21 u a21)). apply (open_loc MIN_ALPHA_NRTL); auto. intros u Hlt. symmetry. apply HB. now apply Hu.
    destruct Hr as [-> | ->]; rewrite ?Nat.eqb_refl; try (destruct (Nat.eqb_spec (k * 2 + 1) (k * 2)); try lia); assumption.
  - apply (is_derive_ext_loc (fun u => if Nat.eqb r (k * 2) then bg0 x0 t12 t21 a12 u else bg1 x0 t12 t21 a12 u)). apply (open_loc MIN_ALPHA_NRTL); auto. intros u Hlt. symmetry. apply HB. now apply Hu.
    destruct Hr as [-> | ->]; rewrite ?Nat.eqb_refl; try (destruct (Nat.eqb_spec (k * 2 + 1) (k * 2)); try lia); assumption.
Qed.

(* Below a limit the parameter is replaced by the limit, so the returned coefficient does not depend on it, but the Jacobian entry is
   that of the limit: an optimiser is given a slope that is not there. *)
Theorem C19_binaries_jac_below_limit_refuted : exists xs t12 t21 a12 a21 buf calc, 0 < xs 0%nat < 1 /\
  is_derive (fun t => NRTL_gammas_binaries xs t12 t21 t a21 buf 1 0%nat) a12 0 /\ NRTL_gammas_binaries_jac xs t12 t21 a12 a21 calc 1 0%nat 2%nat <> 0.
Proof.
  exists (fun _ => 1 / 2), 1, 0, 0, 1, (fun _ => 0), (fun _ _ => 0). assert (M1 : 0 < MIN_ALPHA_NRTL) by (unfold MIN_ALPHA_NRTL; apply Rdiv_lt_0_compat; [lra | apply pow_lt; lra]).
  assert (M2 : MIN_ALPHA_NRTL < 1). { unfold MIN_ALPHA_NRTL. apply Rmult_lt_reg_r with (10 ^ 10). apply pow_lt; lra. unfold Rdiv. rewrite Rmult_assoc, Rinv_l by (apply pow_nonzero; lra). rewrite !Rmult_1_l. apply Rlt_pow_R1. lra. lia. }
  assert (M3 : MIN_TAU_NRTL <= 0). { unfold MIN_TAU_NRTL. assert (0 < 10 ^ 100) by (apply pow_lt; lra). lra. }
  split. lra. split.
  - apply (is_derive_ext_loc (fun _ => NRTL_gammas_binaries (fun _ => 1 / 2) 1 0 0 1 (fun _ => 0) 1 0%nat)). 2: apply @is_derive_const.
    apply (locally_interval _ 0 m_infty (Finite MIN_ALPHA_NRTL)). exact I. exact M1. intros u _ Hu. cbn in Hu. unfold NRTL_gammas_binaries. rewrite (Rltb_true 0 MIN_ALPHA_NRTL), (Rltb_true u MIN_ALPHA_NRTL) by auto. reflexivity.
  - unfold NRTL_gammas_binaries_jac. rewrite (Rltb_true 0 MIN_ALPHA_NRTL) by auto. rewrite !Rltb_false by lra. cbn [loop]. unfold updm, upd. cbn [Nat.eqb andb Nat.mul Nat.add].
    set (m := MIN_ALPHA_NRTL) in *. clearbody m. assert (1 < exp (m * 1)). { rewrite <- exp_0 at 1. apply exp_increasing. lra. } set (u := exp (m * 1)) in *. clearbody u.
    match goal with |- context [exp ?q] => pose proof (exp_pos q) as P; generalize dependent (exp q) end. intros v P.
    match goal with |- ?w <> 0 => replace w with (- (v * u * (u - 1) / (1 + u) ^ 3)) by (field; lra) end.
    apply Rlt_not_eq. assert (0 < v * u * (u - 1) / (1 + u) ^ 3); [|lra]. apply Rdiv_lt_0_compat. 2: apply pow_lt; lra. repeat apply Rmult_lt_0_compat; lra.
Qed.

Example C19_hypotheses_met : amounts 2 (pair2 (1 / 4) (3 / 4)) /\ inner (1 / 2) (-1) (3 / 10) (3 / 10) /\
  NRTL_gammas_binaries (pair2 (1 / 4) (3 / 4)) 1 (-1) (3 / 10) (3 / 10) (fun _ => 0) 1 0%nat <> 1.
Proof.
  assert (M1 : MIN_ALPHA_NRTL < 3 / 10). { unfold MIN_ALPHA_NRTL. apply Rmult_lt_reg_r with (10 ^ 10). apply pow_lt; lra. unfold Rdiv. rewrite Rmult_assoc, Rinv_l by (apply pow_nonzero; lra). simpl. lra. }
  assert (M3 : MIN_TAU_NRTL < -1). { unfold MIN_TAU_NRTL. assert (1 < 10 ^ 100) by (apply Rlt_pow_R1; [lra|lia]). lra. }
  splits. split. intros [|[|k]] Hk; cbn; try lra. cbn. lra. unfold inner. lra.
  change 0%nat with (0 * 2)%nat at 2. rewrite (proj1 (bin_eq (pair2 (1 / 4) (3 / 4)) 1 (-1) (3 / 10) (3 / 10) (fun _ => 0) 1 0 ltac:(unfold unclipped; lra) ltac:(lia))).
  unfold bg0, pair2. cbn [Nat.mul]. apply Rlt_not_eq. apply Rlt_le_trans with (exp 0). 2: rewrite exp_0; lra. apply exp_increasing.
  assert (A1 : 1 < exp (- (3 / 10) * -1)). { rewrite <- exp_0 at 1. apply exp_increasing. lra. }
  assert (A2 : 0 < exp (- (3 / 10) * 1) < 1). { split. apply exp_pos. apply Rlt_le_trans with (exp 0). apply exp_increasing. lra. rewrite exp_0. lra. }
  set (u := exp (- (3 / 10) * -1)) in *. set (v := exp (- (3 / 10) * 1)) in *. clearbody u v.
  match goal with |- ?w < 0 => replace w with (9 * (v / (3 + v) ^ 2 - u ^ 2 / (1 + 3 * u) ^ 2)) by (field; lra) end.
  assert (v / (3 + v) ^ 2 < 1 / 16). { apply Rmult_lt_reg_r with ((3 + v) ^ 2). apply pow_lt; lra. unfold Rdiv. rewrite Rmult_assoc, Rinv_l by (apply pow_nonzero; lra). nra. }
  assert (1 / 16 < u ^ 2 / (1 + 3 * u) ^ 2). { apply Rmult_lt_reg_r with ((1 + 3 * u) ^ 2). apply pow_lt; lra. unfold Rdiv. rewrite (Rmult_assoc (u ^ 2)), Rinv_l by (apply pow_nonzero; lra). nra. }
  lra.
Qed.
