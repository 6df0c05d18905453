(* C08: the vectorised alpha routines return for component i what the scalar routine returns for it, for any number of components,
   and whatever the passed-in result buffers contain. *)
From Coq Require Import Reals Lra Psatz List Lia.
From Coquelicot Require Import Coquelicot.
From Verif Require Import Base BaseFacts Numerics Gen_eosclass Gen_alpha Prop_C06 Prop_C06b Prop_C06c.
Open Scope R_scope.

(* entry i of a triple of result lists *)
Definition at_i (r : (nat -> R) * (nat -> R) * (nat -> R)) (i : nat) : R * R * R := let '(a, b, c) := r in (a i, b i, c i).

Lemma loop3_at (n i : nat) (f g h : nat -> R) a b c : (i < n)%nat ->
  at_i (loop n (fun i st => let '(a, b, c) := st in (upd a i (f i), upd b i (g i), upd c i (h i))) (a, b, c)) i = (f i, g i, h i).
Proof.
  intros Hi. assert (E : forall n, loop n (fun i st => let '(a, b, c) := st in (upd a i (f i), upd b i (g i), upd c i (h i))) (a, b, c)
    = (loop n (fun i a => upd a i (f i)) a, loop n (fun i a => upd a i (g i)) b, loop n (fun i a => upd a i (h i)) c)).
  { induction n0; simpl; auto. rewrite IHn0. reflexivity. }
  rewrite E. unfold at_i. rewrite !loop_upd_lt by auto. reflexivity.
Qed.
Lemma at_i_eta r i : at_i (let '(a, b, c) := r in (a, b, c)) i = at_i r i.
Proof. destruct r as [[a b] c]. reflexivity. Qed.
Lemma triple_eq (a b c a' b' c' : R) : a = a' -> b = b' -> c = c' -> (a, b, c) = (a', b', c').
Proof. congruence. Qed.

Lemma loop3_at' (n i : nat) (F : nat -> (nat -> R) * (nat -> R) * (nat -> R) -> (nat -> R) * (nat -> R) * (nat -> R)) (f g h : nat -> R) s : (i < n)%nat ->
  (forall i a b c, F i (a, b, c) = (upd a i (f i), upd b i (g i), upd c i (h i))) -> at_i (loop n F s) i = (f i, g i, h i).
Proof.
  intros Hi HF. destruct s as [[a b] c]. rewrite <- (loop3_at n i f g h a b c Hi). f_equal. apply loop_ext.
  intros k [[x y] z] _. apply HF.
Qed.
Ltac vec1 H := erewrite loop_upd_lt by exact H; cbv beta.
Ltac vec3 H := rewrite at_i_eta; erewrite loop3_at'; [|exact H|intros ? ? ? ?; cbv beta iota; reflexivity]; cbv beta.

(* thermo/eos_alpha_functions.py, lines 1604-1616: Mathias_Copeman_poly_a_alpha.a_alphas_vectorized (list appends as stores) *)
Definition MC_poly_a_alphas_vectorized (T : R) (ais : nat -> R) (alpha_coeffs : nat -> list R) (Tcs : nat -> R) (N_ : nat) : nat -> R :=
  loop N_ (fun i a_alphas => upd a_alphas i
    (let tau := 1 - sqrt (T / Tcs i) in
     if Rltb T (Tcs i) then let x0 := horner (alpha_coeffs i) tau in x0 * x0 * ais i
     else let x := 1 + second_last (alpha_coeffs i) * tau in ais i * x * x)) (fun _ => 0).
(* thermo/eos_alpha_functions.py, lines 1618-1645: Mathias_Copeman_poly_a_alpha.a_alpha_and_derivatives_vectorized *)
Definition MC_poly_a_alpha_and_derivatives_vectorized (T : R) (ais : nat -> R) (alpha_coeffs : nat -> list R) (Tcs : nat -> R) (N_ : nat) :=
  loop N_ (fun i st => let '(u, v, w) := st in
      let a := ais i in let Tc := Tcs i in let rt := sqrt (T / Tc) in let tau := 1 - rt in
      let '(a_alpha, da_alpha_dT, d2a_alpha_dT2) :=
        if Rltb T Tc then
          let '(x0, x1, x2) := horner_and_der2 (alpha_coeffs i) tau in
          (x0 * x0 * a, - a * (rt * x0 * x1 / T), a * ((x0 * x2 / Tc + x1 * x1 / Tc + rt * x0 * x1 / T) / (2 * T)))
        else
          let c1 := second_last (alpha_coeffs i) in let x0 := 1 / T in let x1 := 1 / Tc in let x2 := rt in let x3 := c1 * (x2 - 1) - 1 in let x4 := x0 * x2 * x3 in
          (a * x3 * x3, a * c1 * x4, a * (1 / 2) * c1 * x0 * (c1 * x1 - x4)) in
      (upd u i a_alpha, upd v i da_alpha_dT, upd w i d2a_alpha_dT2)) (fun _ => 0, fun _ => 0, fun _ => 0).

Section C08.
Variables (N_ : nat) (T : R) (Tcs ais : nat -> R) (i : nat).
Hypothesis Hi : (i < N_)%nat.
Hypothesis HT : 0 < T.
Hypothesis HTc : 0 < Tcs i.
Variables b1 b2 b3 : nat -> R.   (* arbitrary contents of the result buffers *)

Ltac go1 := cbv zeta; vec1 Hi; pose proof HTc as HTc2; set (Tc := Tcs i) in HTc2 |- *; clearbody Tc; roots T Tc; field; side.
Ltac go3 := cbv zeta; vec3 Hi; pose proof HTc as HTc2; set (Tc := Tcs i) in HTc2 |- *; clearbody Tc; apply triple_eq; roots T Tc; field; side.

Theorem C08_PR kappas : PR_a_alphas_vectorized T Tcs ais kappas b1 N_ i = PR_a_alpha_pure T (kappas i) (Tcs i) (ais i).
Proof. unfold PR_a_alphas_vectorized, PR_a_alpha_pure. go1. Qed.
Theorem C08_PR_full kappas : at_i (PR_a_alpha_and_derivatives_vectorized T Tcs ais kappas b1 b2 b3 N_) i = PR_a_alpha_and_derivatives_pure T (Tcs i) (kappas i) (ais i).
Proof. unfold PR_a_alpha_and_derivatives_vectorized, PR_a_alpha_and_derivatives_pure. go3. Qed.
Theorem C08_SRK ms : SRK_a_alphas_vectorized T Tcs ais ms b1 N_ i = SRK_a_alpha_pure T (ais i) (Tcs i) (ms i).
Proof. unfold SRK_a_alphas_vectorized, SRK_a_alpha_pure. go1. Qed.
Theorem C08_SRK_full ms : at_i (SRK_a_alpha_and_derivatives_vectorized T Tcs ais ms b1 b2 b3 N_) i = SRK_a_alpha_and_derivatives_pure T (ais i) (Tcs i) (ms i).
Proof. unfold SRK_a_alpha_and_derivatives_vectorized, SRK_a_alpha_and_derivatives_pure. go3. Qed.
Theorem C08_RK : RK_a_alphas_vectorized T Tcs ais b1 N_ i = RK_a_alpha_pure T (Tcs i) (ais i).
Proof. unfold RK_a_alphas_vectorized, RK_a_alpha_pure. go1. Qed.
Theorem C08_RK_full : at_i (RK_a_alpha_and_derivatives_vectorized T Tcs ais b1 b2 b3 N_) i = RK_a_alpha_and_derivatives_pure T (Tcs i) (ais i).
Proof. unfold RK_a_alpha_and_derivatives_vectorized, RK_a_alpha_and_derivatives_pure. go3. Qed.
Theorem C08_PRSV k0 k1 : PRSV_a_alphas_vectorized T Tcs ais k0 k1 b1 N_ i = PRSV_a_alpha_pure T (Tcs i) (ais i) (k0 i) (k1 i).
Proof. unfold PRSV_a_alphas_vectorized, PRSV_a_alpha_pure. go1. Qed.
Theorem C08_PRSV_full k0 k1 : at_i (PRSV_a_alpha_and_derivatives_vectorized T Tcs ais k0 k1 b1 b2 b3 N_) i = PRSV_a_alpha_and_derivatives_pure T (Tcs i) (ais i) (k0 i) (k1 i).
Proof. unfold PRSV_a_alpha_and_derivatives_vectorized, PRSV_a_alpha_and_derivatives_pure. go3. Qed.
Theorem C08_PRSV2 k0 k1 k2 k3 : PRSV2_a_alphas_vectorized T Tcs ais k0 k1 k2 k3 b1 N_ i = PRSV2_a_alpha_pure T (Tcs i) (ais i) (k0 i) (k1 i) (k2 i) (k3 i).
Proof. unfold PRSV2_a_alphas_vectorized, PRSV2_a_alpha_pure. go1. Qed.
Theorem C08_PRSV2_full k0 k1 k2 k3 : at_i (PRSV2_a_alpha_and_derivatives_vectorized T Tcs ais k0 k1 k2 k3 b1 b2 b3 N_) i = PRSV2_a_alpha_and_derivatives_pure T (Tcs i) (ais i) (k0 i) (k1 i) (k2 i) (k3 i).
Proof. unfold PRSV2_a_alpha_and_derivatives_vectorized, PRSV2_a_alpha_and_derivatives_pure. go3. Qed.
Theorem C08_APISRK S1s S2s : APISRK_a_alphas_vectorized T Tcs ais S1s S2s b1 N_ i = APISRK_a_alpha_pure T (ais i) (Tcs i) (S1s i) (S2s i).
Proof. unfold APISRK_a_alphas_vectorized, APISRK_a_alpha_pure. go1. Qed.
Theorem C08_APISRK_full S1s S2s : at_i (APISRK_a_alpha_and_derivatives_vectorized T Tcs ais S1s S2s b1 b2 b3 N_) i = APISRK_a_alpha_and_derivatives_pure T (ais i) (Tcs i) (S1s i) (S2s i).
Proof. unfold APISRK_a_alpha_and_derivatives_vectorized, APISRK_a_alpha_and_derivatives_pure. go3. Qed.

(* mixin classes whose parameters are one coefficient list per component *)
Theorem C08_Twu91 coeffs : Twu91_a_alphas_vectorized T ais coeffs Tcs N_ i = Twu91_a_alpha_pure T (coeffs i) (Tcs i) (ais i).
Proof.
  unfold Twu91_a_alphas_vectorized, Twu91_a_alpha_pure, Twu91_alpha_pure. cbv zeta. vec1 Hi. unfold Rpower. exps. try ring.
Qed.
Theorem C08_Twu91_full coeffs : at_i (Twu91_a_alpha_and_derivatives_vectorized T ais coeffs Tcs N_) i = Twu91_a_alpha_and_derivatives_pure T (coeffs i) (Tcs i) (ais i).
Proof.
  unfold Twu91_a_alpha_and_derivatives_vectorized, Twu91_a_alpha_and_derivatives_pure. cbv zeta. vec3 Hi. apply triple_eq; unfold Rpower; exps; field; side.
Qed.
Theorem C08_Soave_1979 coeffs : Soave_1979_a_alphas_vectorized T ais coeffs Tcs N_ i = Soave_1979_a_alpha_pure T (coeffs i) (Tcs i) (ais i).
Proof.
  unfold Soave_1979_a_alphas_vectorized, Soave_1979_a_alpha_pure, Soave_1979_alpha_pure. cbv zeta. vec1 Hi. field; side.
Qed.
Theorem C08_Soave_1979_full coeffs : at_i (Soave_1979_a_alpha_and_derivatives_vectorized T ais coeffs Tcs N_) i = Soave_1979_a_alpha_and_derivatives_pure T (coeffs i) (Tcs i) (ais i).
Proof.
  unfold Soave_1979_a_alpha_and_derivatives_vectorized, Soave_1979_a_alpha_and_derivatives_pure. cbv zeta. vec3 Hi. apply triple_eq; field; side.
Qed.
Theorem C08_Mathias_Copeman_poly coeffs : MC_poly_a_alphas_vectorized T ais coeffs Tcs N_ i = MC_poly_a_alpha_pure T (ais i) (Tcs i) (coeffs i).
Proof. unfold MC_poly_a_alphas_vectorized, MC_poly_a_alpha_pure. cbv zeta. vec1 Hi. reflexivity. Qed.
Theorem C08_Mathias_Copeman_poly_full coeffs : at_i (MC_poly_a_alpha_and_derivatives_vectorized T ais coeffs Tcs N_) i = MC_poly_a_alpha_and_derivatives_pure T (ais i) (Tcs i) (coeffs i).
Proof.
  unfold MC_poly_a_alpha_and_derivatives_vectorized.
  assert (E : forall n s, (forall k, (k < n)%nat -> at_i (loop n (fun i st => let '(u, v, w) := st in
      let a := ais i in let Tc := Tcs i in let rt := sqrt (T / Tc) in let tau := 1 - rt in
      let '(a_alpha, da_alpha_dT, d2a_alpha_dT2) :=
        if Rltb T Tc then
          let '(x0, x1, x2) := horner_and_der2 (coeffs i) tau in
          (x0 * x0 * a, - a * (rt * x0 * x1 / T), a * ((x0 * x2 / Tc + x1 * x1 / Tc + rt * x0 * x1 / T) / (2 * T)))
        else
          let c1 := second_last (coeffs i) in let x0 := 1 / T in let x1 := 1 / Tc in let x2 := rt in let x3 := c1 * (x2 - 1) - 1 in let x4 := x0 * x2 * x3 in
          (a * x3 * x3, a * c1 * x4, a * (1 / 2) * c1 * x0 * (c1 * x1 - x4)) in
      (upd u i a_alpha, upd v i da_alpha_dT, upd w i d2a_alpha_dT2)) s) k = MC_poly_a_alpha_and_derivatives_pure T (ais k) (Tcs k) (coeffs k))).
  { intros n s k Hk. rewrite (loop3_at' n k _ (fun k => p1 (MC_poly_a_alpha_and_derivatives_pure T (ais k) (Tcs k) (coeffs k)))
      (fun k => p2 (MC_poly_a_alpha_and_derivatives_pure T (ais k) (Tcs k) (coeffs k))) (fun k => p3 (MC_poly_a_alpha_and_derivatives_pure T (ais k) (Tcs k) (coeffs k))) s Hk).
    - destruct (MC_poly_a_alpha_and_derivatives_pure T (ais k) (Tcs k) (coeffs k)) as [[x y] z]. reflexivity.
    - intros j u v w. unfold MC_poly_a_alpha_and_derivatives_pure. cbv zeta. destruct (Rltb T (Tcs j)).
      + destruct (horner_and_der2 _ _) as [[x0 x1] x2]. reflexivity.
      + simpl. do 2 f_equal. ring. }
  apply E. exact Hi.
Qed.
End C08.

Example C08_hypotheses_met : (1 < 3)%nat /\ 0 < 300 /\ 0 < (fun i : nat => 500 + INR i) 1%nat.
Proof. repeat split; [lia|lra|simpl; lra]. Qed.
