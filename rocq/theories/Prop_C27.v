From Coq Require Import Reals Lra Lia Arith Bool.
From Verif Require Import Base BaseFacts MixFacts MixDeriv NrtlFacts ActFacts Gen_activity Gen_alpha Gen_lnphi Gen_mix Gen_nrtl Gen_regular Gen_uniquac Gen_wilson Prop_C21.
Open Scope R_scope.
(* Two runs of the same loop from different starting contents. *)
Lemma loop_rel {A B} (Q : nat -> A -> B -> Prop) n f g a b : Q O a b -> (forall i u v, (i < n)%nat -> Q i u v -> Q (S i) (f i u) (g i v)) -> Q n (loop n f a) (loop n g b).
Proof. intros H0 HS. induction n; [exact H0|]. cbn. apply HS; [lia|]. apply IHn. intros; apply HS; auto; lia. Qed.
Lemma loop_fillx {A} n (f : nat -> (nat -> A) -> A) o k : (k < n)%nat -> (forall i u v, (i < n)%nat -> f i u = f i v) -> loop n (fun i o => upd o i (f i o)) o k = f k o.
Proof. intros Hk E. rewrite (loop_ext n _ (fun i o' => upd o' i (f i o))). - now rewrite (loop_upd_lt n (fun i => f i o)). - intros i s Hi. f_equal. now apply E. Qed.
(* the lists agree on the entries described by the predicate *)
Definition agV (P : nat -> Prop) (u v : nat -> R) := forall i, P i -> u i = v i.
Definition agM (P : nat -> nat -> Prop) (u v : nat -> nat -> R) := forall i j, P i j -> u i j = v i j.
Definition agT (P : nat -> nat -> nat -> Prop) (u v : nat -> nat -> nat -> R) := forall i j k, P i j k -> u i j k = v i j k.
Lemma agV_upd (P Q : nat -> Prop) u v i x y : agV P u v -> x = y -> (forall a, Q a -> P a \/ a = i) -> agV Q (upd u i x) (upd v i y).
Proof. intros H -> HQ a Ha. unfold upd. destruct (a =? i)%nat eqn:E; auto. apply H. destruct (HQ a Ha); auto. apply Nat.eqb_neq in E. contradiction. Qed.
Lemma agM_upd (P Q : nat -> nat -> Prop) u v i j x y : agM P u v -> x = y -> (forall a b, Q a b -> P a b \/ (a = i /\ b = j)) -> agM Q (updm u i j x) (updm v i j y).
Proof. intros H -> HQ a b Ha. unfold updm. destruct ((a =? i) && (b =? j))%nat eqn:E; auto. apply H. destruct (HQ a b Ha) as [|[-> ->]]; auto. rewrite !Nat.eqb_refl in E. discriminate. Qed.
Lemma agT_upd (P Q : nat -> nat -> nat -> Prop) u v i j k x y : agT P u v -> x = y -> (forall a b c, Q a b c -> P a b c \/ (a = i /\ b = j /\ c = k)) -> agT Q (updt u i j k x) (updt v i j k y).
Proof. intros H -> HQ a b c Ha. unfold updt. destruct ((a =? i) && ((b =? j) && (c =? k)))%nat eqn:E; auto. apply H. destruct (HQ a b c Ha) as [|[-> [-> ->]]]; auto. rewrite !Nat.eqb_refl in E. discriminate. Qed.
Lemma fill3 n (f : nat -> (nat -> R) * (nat -> R) * (nat -> R) -> (nat -> R) * (nat -> R) * (nat -> R)) a b c a' b' c' :
  (forall i, exists p q r, forall u v w, f i (u, v, w) = (upd u i p, upd v i q, upd w i r)) ->
  let s := loop n f (a, b, c) in let s' := loop n f (a', b', c') in
  forall i, (i < n)%nat -> fst (fst s) i = fst (fst s') i /\ snd (fst s) i = snd (fst s') i /\ snd s i = snd s' i.
Proof.
  intros F. cbv zeta.
  apply (loop_rel (fun m s s' => forall i, (i < m)%nat -> fst (fst s) i = fst (fst s') i /\ snd (fst s) i = snd (fst s') i /\ snd s i = snd s' i)); [intros; lia|].
  intros i [[u v] w] [[u' v'] w'] Hi H k Hk. destruct (F i) as [p [q [r E]]]. rewrite !E. cbn. unfold upd. destruct (k =? i)%nat eqn:K; auto. apply Nat.eqb_neq in K. apply (H k). lia.
Qed.
Ltac b1 := first [ rewrite !loop_updm_lt by assumption | rewrite !loop_updt_lt by assumption | rewrite !loop_updm_mirror by assumption | rewrite !loop_upd_lt by assumption ].
Lemma agM_mono (P Q : nat -> nat -> Prop) u v : agM P u v -> (forall a b, Q a b -> P a b) -> agM Q u v.
Proof. intros H K a b Hq. apply H, K, Hq. Qed.
Lemma agT_mono (P Q : nat -> nat -> nat -> Prop) u v : agT P u v -> (forall a b c, Q a b c -> P a b c) -> agT Q u v.
Proof. intros H K a b c Hq. apply H, K, Hq. Qed.
(* thermo/activity.py line 83: gammas *)
Theorem C27_gibbs_excess_gammas (xs : nat -> R) (dG_dxs : nat -> R) (GE : R) (T : R) (gammas : nat -> R) (N_ : nat) (gammas' : nat -> R) : forall i, (i < N_)%nat -> (gibbs_excess_gammas xs dG_dxs GE T gammas N_) i = (gibbs_excess_gammas xs dG_dxs GE T gammas' N_) i.
Proof. intros; unfold gibbs_excess_gammas; cbv zeta; b1; reflexivity. Qed.
(* thermo/activity.py line 95: dHE_dxs *)
Theorem C27_gibbs_excess_dHE_dxs (dGE_dxs : nat -> R) (d2GE_dTdxs : nat -> R) (N_ : nat) (T : R) (dHE_dxs : nat -> R) (dHE_dxs' : nat -> R) : forall i, (i < N_)%nat -> (gibbs_excess_dHE_dxs dGE_dxs d2GE_dTdxs N_ T dHE_dxs) i = (gibbs_excess_dHE_dxs dGE_dxs d2GE_dTdxs N_ T dHE_dxs') i.
Proof. intros; unfold gibbs_excess_dHE_dxs; cbv zeta; b1; reflexivity. Qed.
(* thermo/activity.py line 103: vec0, dgammas_dns *)
Theorem C27_gibbs_excess_dgammas_dns (xs : nat -> R) (gammas : nat -> R) (d2GE_dxixjs : nat -> nat -> R) (N_ : nat) (T : R) (dgammas_dns : nat -> nat -> R) (vec0 : nat -> R) (dgammas_dns' : nat -> nat -> R) (vec0' : nat -> R) : forall i j, (i < N_)%nat -> (j < N_)%nat -> (gibbs_excess_dgammas_dns xs gammas d2GE_dxixjs N_ T dgammas_dns vec0) i j = (gibbs_excess_dgammas_dns xs gammas d2GE_dxixjs N_ T dgammas_dns' vec0') i j.
Proof. intros; unfold gibbs_excess_dgammas_dns; cbv zeta; rewrite !loop_updm_lt by assumption; rewrite !loop_upd_lt by assumption; reflexivity. Qed.
(* thermo/activity.py line 126: dgammas_dT *)
Theorem C27_gibbs_excess_dgammas_dT (xs : nat -> R) (GE : R) (dGE_dT : R) (dG_dxs : nat -> R) (d2GE_dTdxs : nat -> R) (N_ : nat) (T : R) (dgammas_dT : nat -> R) (dgammas_dT' : nat -> R) : forall i, (i < N_)%nat -> (gibbs_excess_dgammas_dT xs GE dGE_dT dG_dxs d2GE_dTdxs N_ T dgammas_dT) i = (gibbs_excess_dgammas_dT xs GE dGE_dT dG_dxs d2GE_dTdxs N_ T dgammas_dT') i.
Proof. intros; unfold gibbs_excess_dgammas_dT; cbv zeta; b1; reflexivity. Qed.
(* thermo/activity.py line 144: lambdas *)
Theorem C27_interaction_exp (T : R) (N_ : nat) (A : nat -> nat -> R) (B : nat -> nat -> R) (C_ : nat -> nat -> R) (D_ : nat -> nat -> R) (E_ : nat -> nat -> R) (F : nat -> nat -> R) (lambdas : nat -> nat -> R) (lambdas' : nat -> nat -> R) : forall i j, (i < N_)%nat -> (j < N_)%nat -> (interaction_exp T N_ A B C_ D_ E_ F lambdas) i j = (interaction_exp T N_ A B C_ D_ E_ F lambdas') i j.
Proof. intros; unfold interaction_exp; cbv zeta; b1; reflexivity. Qed.
(* thermo/activity.py line 184: dlambdas_dT *)
Theorem C27_dinteraction_exp_dT (T : R) (N_ : nat) (B : nat -> nat -> R) (C_ : nat -> nat -> R) (D_ : nat -> nat -> R) (E_ : nat -> nat -> R) (F : nat -> nat -> R) (lambdas : nat -> nat -> R) (dlambdas_dT : nat -> nat -> R) (dlambdas_dT' : nat -> nat -> R) : forall i j, (i < N_)%nat -> (j < N_)%nat -> (dinteraction_exp_dT T N_ B C_ D_ E_ F lambdas dlambdas_dT) i j = (dinteraction_exp_dT T N_ B C_ D_ E_ F lambdas dlambdas_dT') i j.
Proof. intros; unfold dinteraction_exp_dT; cbv zeta; b1; reflexivity. Qed.
(* thermo/activity.py line 206: d2lambdas_dT2 *)
Theorem C27_d2interaction_exp_dT2 (T : R) (N_ : nat) (B : nat -> nat -> R) (C_ : nat -> nat -> R) (E_ : nat -> nat -> R) (F : nat -> nat -> R) (lambdas : nat -> nat -> R) (dlambdas_dT : nat -> nat -> R) (d2lambdas_dT2 : nat -> nat -> R) (d2lambdas_dT2' : nat -> nat -> R) : forall i j, (i < N_)%nat -> (j < N_)%nat -> (d2interaction_exp_dT2 T N_ B C_ E_ F lambdas dlambdas_dT d2lambdas_dT2) i j = (d2interaction_exp_dT2 T N_ B C_ E_ F lambdas dlambdas_dT d2lambdas_dT2') i j.
Proof. intros; unfold d2interaction_exp_dT2; cbv zeta; b1; reflexivity. Qed.
(* thermo/activity.py line 229: d3lambdas_dT3 *)
Theorem C27_d3interaction_exp_dT3 (T : R) (N_ : nat) (B : nat -> nat -> R) (C_ : nat -> nat -> R) (E_ : nat -> nat -> R) (F : nat -> nat -> R) (lambdas : nat -> nat -> R) (dlambdas_dT : nat -> nat -> R) (d3lambdas_dT3 : nat -> nat -> R) (d3lambdas_dT3' : nat -> nat -> R) : forall i j, (i < N_)%nat -> (j < N_)%nat -> (d3interaction_exp_dT3 T N_ B C_ E_ F lambdas dlambdas_dT d3lambdas_dT3) i j = (d3interaction_exp_dT3 T N_ B C_ E_ F lambdas dlambdas_dT d3lambdas_dT3') i j.
Proof. intros; unfold d3interaction_exp_dT3; cbv zeta; b1; reflexivity. Qed.
(* thermo/nrtl.py line 77: gammas, vec0, vec1 *)
Theorem C27_nrtl_gammas (xs : nat -> R) (N_ : nat) (Gs : nat -> nat -> R) (taus : nat -> nat -> R) (xj_Gs_jis_inv : nat -> R) (xj_Gs_taus_jis : nat -> R) (gammas : nat -> R) (vec0 : nat -> R) (vec1 : nat -> R) (gammas' : nat -> R) (vec0' : nat -> R) (vec1' : nat -> R) : forall i, (i < N_)%nat -> (nrtl_gammas xs N_ Gs taus xj_Gs_jis_inv xj_Gs_taus_jis gammas vec0 vec1) i = (nrtl_gammas xs N_ Gs taus xj_Gs_jis_inv xj_Gs_taus_jis gammas' vec0' vec1') i.
Proof. intros; unfold nrtl_gammas; cbv zeta; rewrite !(loop_upd_lt N_) by assumption; apply f_equal; apply loop_ext; intros; rewrite !(loop_upd_lt N_) by assumption; reflexivity. Qed.
(* thermo/nrtl.py line 103: taus *)
Theorem C27_nrtl_taus (T : R) (N_ : nat) (A : nat -> nat -> R) (B : nat -> nat -> R) (E_ : nat -> nat -> R) (F : nat -> nat -> R) (G : nat -> nat -> R) (H : nat -> nat -> R) (taus : nat -> nat -> R) (taus' : nat -> nat -> R) : forall i j, (i < N_)%nat -> (j < N_)%nat -> (nrtl_taus T N_ A B E_ F G H taus) i j = (nrtl_taus T N_ A B E_ F G H taus') i j.
Proof. intros; unfold nrtl_taus; cbv zeta; b1; reflexivity. Qed.
(* thermo/nrtl.py line 127: dtaus_dT *)
Theorem C27_nrtl_dtaus_dT (T : R) (N_ : nat) (B : nat -> nat -> R) (E_ : nat -> nat -> R) (F : nat -> nat -> R) (G : nat -> nat -> R) (H : nat -> nat -> R) (dtaus_dT : nat -> nat -> R) (dtaus_dT' : nat -> nat -> R) : forall i j, (i < N_)%nat -> (j < N_)%nat -> (nrtl_dtaus_dT T N_ B E_ F G H dtaus_dT) i j = (nrtl_dtaus_dT T N_ B E_ F G H dtaus_dT') i j.
Proof. intros; unfold nrtl_dtaus_dT; cbv zeta; b1; reflexivity. Qed.
(* thermo/nrtl.py line 148: d2taus_dT2 *)
Theorem C27_nrtl_d2taus_dT2 (T : R) (N_ : nat) (B : nat -> nat -> R) (E_ : nat -> nat -> R) (G : nat -> nat -> R) (H : nat -> nat -> R) (d2taus_dT2 : nat -> nat -> R) (d2taus_dT2' : nat -> nat -> R) : forall i j, (i < N_)%nat -> (j < N_)%nat -> (nrtl_d2taus_dT2 T N_ B E_ G H d2taus_dT2) i j = (nrtl_d2taus_dT2 T N_ B E_ G H d2taus_dT2') i j.
Proof. intros; unfold nrtl_d2taus_dT2; cbv zeta; b1; reflexivity. Qed.
(* thermo/nrtl.py line 171: d3taus_dT3 *)
Theorem C27_nrtl_d3taus_dT3 (T : R) (N_ : nat) (B : nat -> nat -> R) (E_ : nat -> nat -> R) (G : nat -> nat -> R) (d3taus_dT3 : nat -> nat -> R) (d3taus_dT3' : nat -> nat -> R) : forall i j, (i < N_)%nat -> (j < N_)%nat -> (nrtl_d3taus_dT3 T N_ B E_ G d3taus_dT3) i j = (nrtl_d3taus_dT3 T N_ B E_ G d3taus_dT3') i j.
Proof. intros; unfold nrtl_d3taus_dT3; cbv zeta; b1; reflexivity. Qed.
(* thermo/nrtl.py line 193: alphas *)
Theorem C27_nrtl_alphas (T : R) (N_ : nat) (c : nat -> nat -> R) (d : nat -> nat -> R) (alphas : nat -> nat -> R) (alphas' : nat -> nat -> R) : forall i j, (i < N_)%nat -> (j < N_)%nat -> (nrtl_alphas T N_ c d alphas) i j = (nrtl_alphas T N_ c d alphas') i j.
Proof. intros; unfold nrtl_alphas; cbv zeta; b1; reflexivity. Qed.
(* thermo/nrtl.py line 206: Gs *)
Theorem C27_nrtl_Gs (N_ : nat) (alphas : nat -> nat -> R) (taus : nat -> nat -> R) (Gs : nat -> nat -> R) (Gs' : nat -> nat -> R) : forall i j, (i < N_)%nat -> (j < N_)%nat -> (nrtl_Gs N_ alphas taus Gs) i j = (nrtl_Gs N_ alphas taus Gs') i j.
Proof. intros; unfold nrtl_Gs; cbv zeta; b1; reflexivity. Qed.
(* thermo/nrtl.py line 219: dGs_dT *)
Theorem C27_nrtl_dGs_dT (N_ : nat) (alphas : nat -> nat -> R) (dalphas_dT : nat -> nat -> R) (taus : nat -> nat -> R) (dtaus_dT : nat -> nat -> R) (Gs : nat -> nat -> R) (dGs_dT : nat -> nat -> R) (dGs_dT' : nat -> nat -> R) : forall i j, (i < N_)%nat -> (j < N_)%nat -> (nrtl_dGs_dT N_ alphas dalphas_dT taus dtaus_dT Gs dGs_dT) i j = (nrtl_dGs_dT N_ alphas dalphas_dT taus dtaus_dT Gs dGs_dT') i j.
Proof. intros; unfold nrtl_dGs_dT; cbv zeta; b1; reflexivity. Qed.
(* thermo/nrtl.py line 235: d2Gs_dT2 *)
Theorem C27_nrtl_d2Gs_dT2 (N_ : nat) (alphas : nat -> nat -> R) (dalphas_dT : nat -> nat -> R) (taus : nat -> nat -> R) (dtaus_dT : nat -> nat -> R) (d2taus_dT2 : nat -> nat -> R) (Gs : nat -> nat -> R) (d2Gs_dT2 : nat -> nat -> R) (d2Gs_dT2' : nat -> nat -> R) : forall i j, (i < N_)%nat -> (j < N_)%nat -> (nrtl_d2Gs_dT2 N_ alphas dalphas_dT taus dtaus_dT d2taus_dT2 Gs d2Gs_dT2) i j = (nrtl_d2Gs_dT2 N_ alphas dalphas_dT taus dtaus_dT d2taus_dT2 Gs d2Gs_dT2') i j.
Proof. intros; unfold nrtl_d2Gs_dT2; cbv zeta; b1; reflexivity. Qed.
(* thermo/nrtl.py line 254: d3Gs_dT3 *)
Theorem C27_nrtl_d3Gs_dT3 (N_ : nat) (alphas : nat -> nat -> R) (dalphas_dT : nat -> nat -> R) (taus : nat -> nat -> R) (dtaus_dT : nat -> nat -> R) (d2taus_dT2 : nat -> nat -> R) (d3taus_dT3 : nat -> nat -> R) (Gs : nat -> nat -> R) (d3Gs_dT3 : nat -> nat -> R) (d3Gs_dT3' : nat -> nat -> R) : forall i j, (i < N_)%nat -> (j < N_)%nat -> (nrtl_d3Gs_dT3 N_ alphas dalphas_dT taus dtaus_dT d2taus_dT2 d3taus_dT3 Gs d3Gs_dT3) i j = (nrtl_d3Gs_dT3 N_ alphas dalphas_dT taus dtaus_dT d2taus_dT2 d3taus_dT3 Gs d3Gs_dT3') i j.
Proof. intros; unfold nrtl_d3Gs_dT3; cbv zeta; b1; reflexivity. Qed.
(* thermo/nrtl.py line 279: xj_Gs_jis, xj_Gs_taus_jis *)
Theorem C27_nrtl_xj_Gs_jis_and_Gs_taus_jis (N_ : nat) (xs : nat -> R) (Gs : nat -> nat -> R) (taus : nat -> nat -> R) (Gs_transposed : nat -> nat -> R) (Gs_taus_transposed : nat -> nat -> R) (xj_Gs_jis : nat -> R) (xj_Gs_taus_jis : nat -> R) (xj_Gs_jis' : nat -> R) (xj_Gs_taus_jis' : nat -> R) : (forall i, (i < N_)%nat -> (fst (nrtl_xj_Gs_jis_and_Gs_taus_jis N_ xs Gs taus Gs_transposed Gs_taus_transposed xj_Gs_jis xj_Gs_taus_jis)) i = (fst (nrtl_xj_Gs_jis_and_Gs_taus_jis N_ xs Gs taus Gs_transposed Gs_taus_transposed xj_Gs_jis' xj_Gs_taus_jis')) i) /\ (forall i, (i < N_)%nat -> (snd (nrtl_xj_Gs_jis_and_Gs_taus_jis N_ xs Gs taus Gs_transposed Gs_taus_transposed xj_Gs_jis xj_Gs_taus_jis)) i = (snd (nrtl_xj_Gs_jis_and_Gs_taus_jis N_ xs Gs taus Gs_transposed Gs_taus_transposed xj_Gs_jis' xj_Gs_taus_jis')) i).
Proof. splits; intros; unfold nrtl_xj_Gs_jis_and_Gs_taus_jis; cbv zeta; cbn [fst snd]; rewrite !(loop_upd_lt N_) by assumption; reflexivity. Qed.
(* thermo/nrtl.py line 301: xj_Gs_jis *)
Theorem C27_nrtl_xj_Gs_jis (N_ : nat) (xs : nat -> R) (Gs : nat -> nat -> R) (xj_Gs_jis : nat -> R) (xj_Gs_jis' : nat -> R) : forall i, (i < N_)%nat -> (nrtl_xj_Gs_jis N_ xs Gs xj_Gs_jis) i = (nrtl_xj_Gs_jis N_ xs Gs xj_Gs_jis') i.
Proof. intros; unfold nrtl_xj_Gs_jis; cbv zeta; b1; reflexivity. Qed.
(* thermo/nrtl.py line 312: xj_Gs_taus_jis *)
Theorem C27_nrtl_xj_Gs_taus_jis (N_ : nat) (xs : nat -> R) (Gs : nat -> nat -> R) (taus : nat -> nat -> R) (xj_Gs_taus_jis : nat -> R) (xj_Gs_taus_jis' : nat -> R) : forall i, (i < N_)%nat -> (nrtl_xj_Gs_taus_jis N_ xs Gs taus xj_Gs_taus_jis) i = (nrtl_xj_Gs_taus_jis N_ xs Gs taus xj_Gs_taus_jis') i.
Proof. intros; unfold nrtl_xj_Gs_taus_jis; cbv zeta; b1; reflexivity. Qed.
(* thermo/nrtl.py line 384: dGE_dxs *)
Theorem C27_nrtl_dGE_dxs (N_ : nat) (T : R) (xs : nat -> R) (taus : nat -> nat -> R) (Gs : nat -> nat -> R) (xj_Gs_taus_jis : nat -> R) (xj_Gs_jis_inv : nat -> R) (dGE_dxs : nat -> R) (dGE_dxs' : nat -> R) : forall i, (i < N_)%nat -> (nrtl_dGE_dxs N_ T xs taus Gs xj_Gs_taus_jis xj_Gs_jis_inv dGE_dxs) i = (nrtl_dGE_dxs N_ T xs taus Gs xj_Gs_taus_jis xj_Gs_jis_inv dGE_dxs') i.
Proof. intros; unfold nrtl_dGE_dxs; cbv zeta; b1; reflexivity. Qed.
(* thermo/nrtl.py line 397: d2GE_dxixjs *)
Theorem C27_nrtl_d2GE_dxixjs (N_ : nat) (T : R) (xs : nat -> R) (taus : nat -> nat -> R) (Gs : nat -> nat -> R) (xj_Gs_taus_jis : nat -> R) (xj_Gs_jis_inv : nat -> R) (d2GE_dxixjs : nat -> nat -> R) (d2GE_dxixjs' : nat -> nat -> R) : forall i j, (i < N_)%nat -> (j < N_)%nat -> (nrtl_d2GE_dxixjs N_ T xs taus Gs xj_Gs_taus_jis xj_Gs_jis_inv d2GE_dxixjs) i j = (nrtl_d2GE_dxixjs N_ T xs taus Gs xj_Gs_taus_jis xj_Gs_jis_inv d2GE_dxixjs') i j.
Proof. intros; unfold nrtl_d2GE_dxixjs; cbv zeta; b1; reflexivity. Qed.
(* thermo/nrtl.py line 427: d2GE_dTdxs, vec0, vec1 *)
Theorem C27_nrtl_d2GE_dTdxs (N_ : nat) (T : R) (xs : nat -> R) (taus : nat -> nat -> R) (dtaus_dT : nat -> nat -> R) (Gs : nat -> nat -> R) (dGs_dT : nat -> nat -> R) (xj_Gs_taus_jis : nat -> R) (xj_Gs_jis_inv : nat -> R) (xj_dGs_dT_jis : nat -> R) (xj_taus_dGs_dT_jis : nat -> R) (xj_Gs_dtaus_dT_jis : nat -> R) (d2GE_dTdxs : nat -> R) (vec0 : nat -> R) (vec1 : nat -> R) (d2GE_dTdxs' : nat -> R) (vec0' : nat -> R) (vec1' : nat -> R) : forall i, (i < N_)%nat -> (nrtl_d2GE_dTdxs N_ T xs taus dtaus_dT Gs dGs_dT xj_Gs_taus_jis xj_Gs_jis_inv xj_dGs_dT_jis xj_taus_dGs_dT_jis xj_Gs_dtaus_dT_jis d2GE_dTdxs vec0 vec1) i = (nrtl_d2GE_dTdxs N_ T xs taus dtaus_dT Gs dGs_dT xj_Gs_taus_jis xj_Gs_jis_inv xj_dGs_dT_jis xj_taus_dGs_dT_jis xj_Gs_dtaus_dT_jis d2GE_dTdxs' vec0' vec1') i.
Proof. intros i0 Hi0. unfold nrtl_d2GE_dTdxs. cbv zeta.
  match goal with |- ?a i0 = ?b i0 => assert (E : agV (fun i => (i < N_)%nat) a b); [|apply E; auto] end.
  apply (loop_rel (fun m u v => agV (fun i => (i < m)%nat) u v)); [intros ? ?; lia|].
  intros i u v Hi H. cbv beta iota zeta. rewrite ?(loop_upd_lt N_) by assumption.
  match goal with |- agV _ (let '_ := loop N_ ?f ?s in _) (let '_ := loop N_ ?g _ in _) => assert (H' : loop N_ f s = loop N_ g s); [| try rewrite H'; destruct (loop N_ g s) as [? ?]; eapply agV_upd; [exact H | reflexivity | cbv beta; intros; lia]] end.
  apply loop_ext. intros ? [? ?] ?. rewrite ?(loop_upd_lt N_) by assumption.  reflexivity. Qed.
(* thermo/wilson.py line 66: xj_Lambda_ijs *)
Theorem C27_wilson_xj_Lambda_ijs (xs : nat -> R) (lambdas : nat -> nat -> R) (N_ : nat) (xj_Lambda_ijs : nat -> R) (xj_Lambda_ijs' : nat -> R) : forall i, (i < N_)%nat -> (wilson_xj_Lambda_ijs xs lambdas N_ xj_Lambda_ijs) i = (wilson_xj_Lambda_ijs xs lambdas N_ xj_Lambda_ijs') i.
Proof. intros; unfold wilson_xj_Lambda_ijs; cbv zeta; b1; reflexivity. Qed.
(* thermo/wilson.py line 123: d2GE_dTdxs *)
Theorem C27_wilson_d2GE_dTdxs (xs : nat -> R) (T : R) (N_ : nat) (log_xj_Lambda_ijs : nat -> R) (lambdas : nat -> nat -> R) (dlambdas_dT : nat -> nat -> R) (xj_Lambda_ijs_inv : nat -> R) (xj_dLambda_dTijs : nat -> R) (d2GE_dTdxs : nat -> R) (d2GE_dTdxs' : nat -> R) : forall i, (i < N_)%nat -> (wilson_d2GE_dTdxs xs T N_ log_xj_Lambda_ijs lambdas dlambdas_dT xj_Lambda_ijs_inv xj_dLambda_dTijs d2GE_dTdxs) i = (wilson_d2GE_dTdxs xs T N_ log_xj_Lambda_ijs lambdas dlambdas_dT xj_Lambda_ijs_inv xj_dLambda_dTijs d2GE_dTdxs') i.
Proof. intros i0 Hi0. unfold wilson_d2GE_dTdxs. cbv zeta.
  match goal with |- ?a i0 = ?b i0 => assert (E : agV (fun i => (i < N_)%nat) a b); [|apply E; auto] end.
  apply (loop_rel (fun m u v => agV (fun i => (i < m)%nat) u v)); [intros ? ?; lia|].
  intros i u v Hi H. cbv beta iota zeta. rewrite ?(loop_upd_lt N_) by assumption.
  match goal with |- agV _ (let '_ := loop N_ ?f ?s in _) (let '_ := loop N_ ?g _ in _) => assert (H' : loop N_ f s = loop N_ g s); [| try rewrite H'; destruct (loop N_ g s) as [? ?]; eapply agV_upd; [exact H | reflexivity | cbv beta; intros; lia]] end.
  apply loop_ext. intros ? [? ?] ?.  reflexivity. Qed.
(* thermo/wilson.py line 142: dGE_dxs *)
Theorem C27_wilson_dGE_dxs (xs : nat -> R) (T : R) (N_ : nat) (log_xj_Lambda_ijs : nat -> R) (lambdas : nat -> nat -> R) (xj_Lambda_ijs_inv : nat -> R) (dGE_dxs : nat -> R) (dGE_dxs' : nat -> R) : forall i, (i < N_)%nat -> (wilson_dGE_dxs xs T N_ log_xj_Lambda_ijs lambdas xj_Lambda_ijs_inv dGE_dxs) i = (wilson_dGE_dxs xs T N_ log_xj_Lambda_ijs lambdas xj_Lambda_ijs_inv dGE_dxs') i.
Proof. intros; unfold wilson_dGE_dxs; cbv zeta; b1; reflexivity. Qed.
(* thermo/wilson.py line 153: d2GE_dxixjs *)
Theorem C27_wilson_d2GE_dxixjs (xs : nat -> R) (T : R) (N_ : nat) (lambdas : nat -> nat -> R) (xj_Lambda_ijs_inv : nat -> R) (d2GE_dxixjs : nat -> nat -> R) (d2GE_dxixjs' : nat -> nat -> R) : forall i j, (i < N_)%nat -> (j < N_)%nat -> (wilson_d2GE_dxixjs xs T N_ lambdas xj_Lambda_ijs_inv d2GE_dxixjs) i j = (wilson_d2GE_dxixjs xs T N_ lambdas xj_Lambda_ijs_inv d2GE_dxixjs') i j.
Proof. intros; unfold wilson_d2GE_dxixjs; cbv zeta; b1; reflexivity. Qed.
(* thermo/wilson.py line 171: d3GE_dxixjxks *)
Theorem C27_wilson_d3GE_dxixjxks (xs : nat -> R) (T : R) (N_ : nat) (lambdas : nat -> nat -> R) (xj_Lambda_ijs_inv : nat -> R) (d3GE_dxixjxks : nat -> nat -> nat -> R) (d3GE_dxixjxks' : nat -> nat -> nat -> R) : forall i j k, (i < N_)%nat -> (j < N_)%nat -> (k < N_)%nat -> (wilson_d3GE_dxixjxks xs T N_ lambdas xj_Lambda_ijs_inv d3GE_dxixjxks) i j k = (wilson_d3GE_dxixjxks xs T N_ lambdas xj_Lambda_ijs_inv d3GE_dxixjxks') i j k.
Proof. intros; unfold wilson_d3GE_dxixjxks; cbv zeta; b1; reflexivity. Qed.
(* thermo/wilson.py line 196: vec0 *)
Theorem C27_wilson_gammas (xs : nat -> R) (N_ : nat) (lambdas : nat -> nat -> R) (xj_Lambda_ijs_inv : nat -> R) (gammas : nat -> R) (vec0 : nat -> R) (vec0' : nat -> R) : forall i, (i < N_)%nat -> (wilson_gammas xs N_ lambdas xj_Lambda_ijs_inv gammas vec0) i = (wilson_gammas xs N_ lambdas xj_Lambda_ijs_inv gammas vec0') i.
Proof. intros. unfold wilson_gammas. cbv zeta. rewrite !(loop_upd_self N_ (fun i z => exp (1 - z) * xj_Lambda_ijs_inv i)) by assumption.
  match goal with |- exp (1 - loop N_ ?f ?s _) * _ = exp (1 - loop N_ ?g _ _) * _ => assert (H' : loop N_ f s = loop N_ g s) end.
  { apply loop_ext. intros. rewrite !(loop_upd_lt N_) by assumption. reflexivity. }
  rewrite H'. reflexivity. Qed.
(* thermo/uniquac.py line 62: phis *)
Theorem C27_uniquac_phis (N_ : nat) (xs : nat -> R) (rs : nat -> R) (phis : nat -> R) (phis' : nat -> R) : (forall i, (i < N_)%nat -> (fst (uniquac_phis N_ xs rs phis)) i = (fst (uniquac_phis N_ xs rs phis')) i) /\ ((snd (uniquac_phis N_ xs rs phis)) = (snd (uniquac_phis N_ xs rs phis'))).
Proof. destruct (phis_eq N_ xs rs phis) as [A B], (phis_eq N_ xs rs phis') as [A' B']. split; [intros; now rewrite B, B' by assumption | now rewrite A, A']. Qed.
(* thermo/uniquac.py line 75: dphis_dxs, vec0 *)
Theorem C27_uniquac_dphis_dxs (N_ : nat) (rs : nat -> R) (phis : nat -> R) (rsxs_sum_inv : R) (dphis_dxs : nat -> nat -> R) (vec0 : nat -> R) (dphis_dxs' : nat -> nat -> R) (vec0' : nat -> R) : forall i j, (i < N_)%nat -> (j < N_)%nat -> (uniquac_dphis_dxs N_ rs phis rsxs_sum_inv dphis_dxs vec0) i j = (uniquac_dphis_dxs N_ rs phis rsxs_sum_inv dphis_dxs' vec0') i j.
Proof. intros i0 j0 Hi0 Hj0. unfold uniquac_dphis_dxs. cbv zeta.
  match goal with |- ?a i0 j0 = ?b i0 j0 => assert (E : agM (fun i j => (i < N_ /\ j < N_)%nat) a b); [|apply E; auto] end.
  apply (loop_rel (fun m u v => agM (fun i j => (i < N_ /\ j < m)%nat) u v)); [intros ? ? ?; lia|].
  intros m u v Hm H.
  match goal with |- agM _ (updm ?a _ _ _) (updm ?b _ _ _) => assert (E : agM (fun i j => (i < N_ /\ j < S m)%nat) a b) end.
  { eapply agM_mono; [apply (loop_rel (fun p u v => agM (fun i j => (i < N_ /\ j < m \/ i < p /\ j = m)%nat) u v))|cbv beta; intros; lia].
    - intros i j ?. apply H. lia.
    - intros p a b Hp K. eapply agM_upd; [exact K| |cbv beta; intros; lia]. rewrite !(loop_upd_lt N_) by auto. reflexivity. }
  eapply agM_upd; [exact E| |cbv beta; intros; tauto]. now rewrite (E m m) by lia. Qed.
(* thermo/uniquac.py line 94: thetaj_taus_jis *)
Theorem C27_uniquac_thetaj_taus_jis (N_ : nat) (taus : nat -> nat -> R) (thetas : nat -> R) (thetaj_taus_jis : nat -> R) (thetaj_taus_jis' : nat -> R) : forall i, (i < N_)%nat -> (uniquac_thetaj_taus_jis N_ taus thetas thetaj_taus_jis) i = (uniquac_thetaj_taus_jis N_ taus thetas thetaj_taus_jis') i.
Proof. intros; unfold uniquac_thetaj_taus_jis; cbv zeta; b1; reflexivity. Qed.
(* thermo/uniquac.py line 105: thetaj_taus_ijs *)
Theorem C27_uniquac_thetaj_taus_ijs (N_ : nat) (taus : nat -> nat -> R) (thetas : nat -> R) (thetaj_taus_ijs : nat -> R) (thetaj_taus_ijs' : nat -> R) : forall i, (i < N_)%nat -> (uniquac_thetaj_taus_ijs N_ taus thetas thetaj_taus_ijs) i = (uniquac_thetaj_taus_ijs N_ taus thetas thetaj_taus_ijs') i.
Proof. intros; unfold uniquac_thetaj_taus_ijs; cbv zeta; b1; reflexivity. Qed.
(* thermo/uniquac.py line 116: d2phis_dxixjs, vec0, vec1 *)
Theorem C27_uniquac_d2phis_dxixjs (N_ : nat) (xs : nat -> R) (rs : nat -> R) (rsxs_sum_inv : R) (d2phis_dxixjs : nat -> nat -> nat -> R) (vec0 : nat -> R) (vec1 : nat -> R) (d2phis_dxixjs' : nat -> nat -> nat -> R) (vec0' : nat -> R) (vec1' : nat -> R) : forall i j k, (i < N_)%nat -> (j < N_)%nat -> (k < N_)%nat -> (uniquac_d2phis_dxixjs N_ xs rs rsxs_sum_inv d2phis_dxixjs vec0 vec1) i j k = (uniquac_d2phis_dxixjs N_ xs rs rsxs_sum_inv d2phis_dxixjs' vec0' vec1') i j k.
Proof. intros i0 j0 k0 Hi0 Hj0 Hk0. unfold uniquac_d2phis_dxixjs. cbv zeta.
  match goal with |- ?a i0 j0 k0 = ?b i0 j0 k0 => assert (E : agT (fun i j k => (i < N_ /\ j < N_ /\ k < N_)%nat) a b); [|apply E; auto] end.
  apply (loop_rel (fun m u v => agT (fun i j k => (i < m /\ j < N_ /\ k < N_)%nat) u v)); [intros ? ? ? ?; lia|].
  intros m u v Hm H.
  match goal with |- agT _ (updt ?a _ _ _ _) (updt ?b _ _ _ _) => assert (E : agT (fun i j k => (i < S m /\ j < N_ /\ k < N_)%nat) a b) end.
  { eapply agT_mono; [apply (loop_rel (fun p u v => agT (fun i j k => (i < m /\ j < N_ /\ k < N_ \/ i = m /\ j < p /\ k < N_)%nat) u v))|cbv beta; intros; lia].
    - intros i j k ?. apply H. lia.
    - intros p a b Hp K.
      match goal with |- context[if _ then updt (updt ?a _ _ _ _) _ _ _ _ else _] => match goal with |- agT _ _ (if _ then updt (updt ?b _ _ _ _) _ _ _ _ else _) => assert (E : agT (fun i j k => (i < m /\ j < N_ /\ k < N_ \/ i = m /\ j < S p /\ k < N_)%nat) a b) end end.
      { eapply agT_mono; [apply (loop_rel (fun q u v => agT (fun i j k => (i < m /\ j < N_ /\ k < N_ \/ i = m /\ j < p /\ k < N_ \/ i = m /\ j = p /\ k < q)%nat) u v))|cbv beta; intros; lia].
        - intros i j k ?. apply K. lia.
        - intros q s t Hq L. eapply agT_upd; [exact L| |cbv beta; intros; lia]. rewrite !(loop_upd_lt N_) by auto. reflexivity. }
      destruct (p =? m)%nat; [exact E|]. cbv [negb]. eapply agT_upd; [apply (agT_upd _ (fun i j k => (i < m /\ j < N_ /\ k < N_ \/ i = m /\ j < S p /\ k < N_)%nat) _ _ _ _ _ _ _ E); [|cbv beta; intros; tauto]| |cbv beta; intros; tauto]; rewrite !(loop_upd_lt N_) by auto; reflexivity. }
  eapply agT_upd; [exact E| |cbv beta; intros; tauto]. now rewrite (E m m m) by lia. Qed.
(* thermo/uniquac.py line 203: dGE_dxs *)
Theorem C27_uniquac_dGE_dxs (N_ : nat) (T : R) (xs : nat -> R) (qs : nat -> R) (taus : nat -> nat -> R) (phis : nat -> R) (phis_inv : nat -> R) (dphis_dxs : nat -> nat -> R) (thetas : nat -> R) (dthetas_dxs : nat -> nat -> R) (thetaj_taus_jis : nat -> R) (thetaj_taus_jis_inv : nat -> R) (dGE_dxs : nat -> R) (dGE_dxs' : nat -> R) : forall i, (i < N_)%nat -> (uniquac_dGE_dxs N_ T xs qs taus phis phis_inv dphis_dxs thetas dthetas_dxs thetaj_taus_jis thetaj_taus_jis_inv dGE_dxs) i = (uniquac_dGE_dxs N_ T xs qs taus phis phis_inv dphis_dxs thetas dthetas_dxs thetaj_taus_jis thetaj_taus_jis_inv dGE_dxs') i.
Proof. intros; unfold uniquac_dGE_dxs; cbv zeta; b1; reflexivity. Qed.
(* thermo/uniquac.py line 237: d2GE_dTdxs, vec1, vec2, vec3, vec4 *)
Theorem C27_uniquac_d2GE_dTdxs (N_ : nat) (T : R) (xs : nat -> R) (qs : nat -> R) (taus : nat -> nat -> R) (phis : nat -> R) (phis_inv : nat -> R) (dphis_dxs : nat -> nat -> R) (thetas : nat -> R) (dthetas_dxs : nat -> nat -> R) (dtaus_dT : nat -> nat -> R) (thetaj_taus_jis : nat -> R) (thetaj_taus_jis_inv : nat -> R) (thetaj_dtaus_dT_jis : nat -> R) (qsxs : nat -> R) (qsxsthetaj_taus_jis_inv : nat -> R) (d2GE_dTdxs : nat -> R) (vec1 : nat -> R) (vec2 : nat -> R) (vec3 : nat -> R) (vec4 : nat -> R) (d2GE_dTdxs' : nat -> R) (vec1' : nat -> R) (vec2' : nat -> R) (vec3' : nat -> R) (vec4' : nat -> R) : forall i, (i < N_)%nat -> (uniquac_d2GE_dTdxs N_ T xs qs taus phis phis_inv dphis_dxs thetas dthetas_dxs dtaus_dT thetaj_taus_jis thetaj_taus_jis_inv thetaj_dtaus_dT_jis qsxs qsxsthetaj_taus_jis_inv d2GE_dTdxs vec1 vec2 vec3 vec4) i = (uniquac_d2GE_dTdxs N_ T xs qs taus phis phis_inv dphis_dxs thetas dthetas_dxs dtaus_dT thetaj_taus_jis thetaj_taus_jis_inv thetaj_dtaus_dT_jis qsxs qsxsthetaj_taus_jis_inv d2GE_dTdxs' vec1' vec2' vec3' vec4') i.
Proof. intros i0 Hi0. unfold uniquac_d2GE_dTdxs. cbv zeta.
  match goal with |- ?a i0 = ?b i0 => assert (E : agV (fun i => (i < N_)%nat) a b); [|apply E; auto] end.
  apply (loop_rel (fun m u v => agV (fun i => (i < m)%nat) u v)); [intros ? ?; lia|].
  intros i u v Hi H. cbv beta iota zeta. rewrite ?(loop_upd_lt N_) by assumption.
  match goal with |- agV _ (let '_ := loop N_ ?f ?s in _) (let '_ := loop N_ ?g _ in _) => assert (H' : loop N_ f s = loop N_ g s); [| try rewrite H'; destruct (loop N_ g s) as [[[[? ?] ?] ?] ?]; eapply agV_upd; [exact H | reflexivity | cbv beta; intros; lia]] end.
  apply loop_ext. intros ? [[[[? ?] ?] ?] ?] ?. rewrite ?(loop_upd_lt N_) by assumption. rewrite ?(loop_upd_lt N_) by assumption.  reflexivity. Qed.
(* thermo/uniquac.py line 309: d2GE_dxixjs *)
Theorem C27_uniquac_d2GE_dxixjs (N_ : nat) (T : R) (xs : nat -> R) (qs : nat -> R) (taus : nat -> nat -> R) (phis : nat -> R) (thetas : nat -> R) (dphis_dxs : nat -> nat -> R) (d2phis_dxixjs : nat -> nat -> nat -> R) (dthetas_dxs : nat -> nat -> R) (d2thetas_dxixjs : nat -> nat -> nat -> R) (thetaj_taus_jis : nat -> R) (d2GE_dxixjs : nat -> nat -> R) (d2GE_dxixjs' : nat -> nat -> R) : forall i j, (i < N_)%nat -> (j < N_)%nat -> (uniquac_d2GE_dxixjs N_ T xs qs taus phis thetas dphis_dxs d2phis_dxixjs dthetas_dxs d2thetas_dxixjs thetaj_taus_jis d2GE_dxixjs) i j = (uniquac_d2GE_dxixjs N_ T xs qs taus phis thetas dphis_dxs d2phis_dxixjs dthetas_dxs d2thetas_dxixjs thetaj_taus_jis d2GE_dxixjs') i j.
Proof. intros; unfold uniquac_d2GE_dxixjs; cbv zeta; b1; reflexivity. Qed.
(* thermo/regular_solution.py line 80: His *)
Theorem C27_regular_solution_His (SPs : nat -> R) (coeffs : nat -> nat -> R) (N_ : nat) (His : nat -> nat -> R) (His' : nat -> nat -> R) : forall i j, (i < N_)%nat -> (j < N_)%nat -> (regular_solution_His SPs coeffs N_ His) i j = (regular_solution_His SPs coeffs N_ His') i j.
Proof. intros; unfold regular_solution_His; cbv zeta; b1; reflexivity. Qed.
(* thermo/regular_solution.py line 94: Hi_sums *)
Theorem C27_regular_solution_Hi_sums (SPs : nat -> R) (Vs : nat -> R) (xsVs : nat -> R) (coeffs : nat -> nat -> R) (N_ : nat) (Hi_sums : nat -> R) (Hi_sums' : nat -> R) : forall i, (i < N_)%nat -> (regular_solution_Hi_sums SPs Vs xsVs coeffs N_ Hi_sums) i = (regular_solution_Hi_sums SPs Vs xsVs coeffs N_ Hi_sums') i.
Proof. intros; unfold regular_solution_Hi_sums; cbv zeta; b1; reflexivity. Qed.
(* thermo/regular_solution.py line 108: Hi_sums *)
Theorem C27_regular_solution_Hi_sums_fast (Vs : nat -> R) (xsVs : nat -> R) (His : nat -> nat -> R) (N_ : nat) (Hi_sums : nat -> R) (Hi_sums' : nat -> R) : forall i, (i < N_)%nat -> (regular_solution_Hi_sums_fast Vs xsVs His N_ Hi_sums) i = (regular_solution_Hi_sums_fast Vs xsVs His N_ Hi_sums') i.
Proof. intros; unfold regular_solution_Hi_sums_fast; cbv zeta; b1; reflexivity. Qed.
(* thermo/regular_solution.py line 119: Aijs *)
Theorem C27_regular_solution_Aijs (SPs : nat -> R) (coeffs : nat -> nat -> R) (Aijs : nat -> nat -> R) (N_ : nat) (Aijs' : nat -> nat -> R) : forall i j, (i < N_)%nat -> (j < N_)%nat -> (regular_solution_Aijs SPs coeffs Aijs N_) i j = (regular_solution_Aijs SPs coeffs Aijs' N_) i j.
Proof. intros; unfold regular_solution_Aijs; cbv zeta; b1; reflexivity. Qed.
(* thermo/regular_solution.py line 165: dGE_dxs *)
Theorem C27_regular_solution_dGE_dxs (Vs : nat -> R) (Hi_sums : nat -> R) (N_ : nat) (xsVs_sum_inv : R) (GE : R) (dGE_dxs : nat -> R) (dGE_dxs' : nat -> R) : forall i, (i < N_)%nat -> (regular_solution_dGE_dxs Vs Hi_sums N_ xsVs_sum_inv GE dGE_dxs) i = (regular_solution_dGE_dxs Vs Hi_sums N_ xsVs_sum_inv GE dGE_dxs') i.
Proof. intros; unfold regular_solution_dGE_dxs; cbv zeta; b1; reflexivity. Qed.
(* thermo/regular_solution.py line 174: xsVs, Hi_sums, dGE_dxs, gammas *)
Theorem C27_regular_solution_gammas (xs : nat -> R) (N_ : nat) (T : R) (Vs : nat -> R) (SPs : nat -> R) (lambda_coeffs : nat -> nat -> R) (xsVs : nat -> R) (Hi_sums : nat -> R) (dGE_dxs : nat -> R) (gammas : nat -> R) (xsVs' : nat -> R) (Hi_sums' : nat -> R) (dGE_dxs' : nat -> R) (gammas' : nat -> R) : forall i, (i < N_)%nat -> (regular_solution_gammas xs N_ T Vs SPs lambda_coeffs xsVs Hi_sums dGE_dxs gammas) i = (regular_solution_gammas xs N_ T Vs SPs lambda_coeffs xsVs' Hi_sums' dGE_dxs' gammas') i.
Proof. intros. unfold regular_solution_gammas. cbv zeta.
  rewrite !(loop_upd_self N_ (fun _ z => exp z)) by assumption. rewrite !(loop_upd_self N_ (fun _ z => z * (1 / (Rgas * T)))) by assumption. rewrite !(loop_upd_lt N_ (fun i => _ i + _)) by assumption.
  set (w := loop N_ _ xsVs). set (w' := loop N_ _ xsVs'). assert (HW : forall i, (i < N_)%nat -> w i = w' i) by (intros; unfold w, w'; rewrite !(loop_upd_lt N_) by assumption; reflexivity). clearbody w w'.
  replace (loop N_ (fun i s => s + w i) 0) with (loop N_ (fun i s => s + w' i) 0) by (apply loop_ext; intros; rewrite HW by assumption; reflexivity).
  set (q := 1 / _). replace (regular_solution_GE SPs w lambda_coeffs N_ q) with (regular_solution_GE SPs w' lambda_coeffs N_ q).
  2: { unfold regular_solution_GE. cbv zeta. apply f_equal2; [|reflexivity]. apply loop_ext. intros k s Hk. rewrite !(loop_upd_lt N_) by assumption. rewrite !loop_rsum. rewrite (HW k) by assumption. rewrite (rsum_ext N_ (fun i => w i * _ * _) (fun j => w' j * (SPs k - SPs j) * (SPs k - SPs j))) by (intros; rewrite HW by assumption; reflexivity). rewrite (rsum_ext N_ (fun j => w j * _ * _) (fun j => w' j * SPs j * lambda_coeffs k j)) by (intros; rewrite HW by assumption; reflexivity). reflexivity. }
  set (g := regular_solution_GE _ _ _ _ _).
  set (d := regular_solution_dGE_dxs _ _ _ _ _ dGE_dxs). set (d' := regular_solution_dGE_dxs _ _ _ _ _ dGE_dxs').
  assert (HD : forall i, (i < N_)%nat -> d i = d' i). { intros k Hk. unfold d, d', regular_solution_dGE_dxs. cbv zeta. rewrite !(loop_upd_lt N_) by assumption. unfold regular_solution_Hi_sums. cbv zeta. rewrite !(loop_upd_lt N_) by assumption.
    apply f_equal2; [|reflexivity]. apply f_equal2; [|reflexivity]. apply f_equal. apply loop_ext. intros. rewrite HW by assumption. reflexivity. }
  clearbody d d'. rewrite !HD by assumption. replace (loop N_ (fun i s => s - xs i * d i) g) with (loop N_ (fun i s => s - xs i * d' i) g) by (apply loop_ext; intros; rewrite HD by assumption; reflexivity). reflexivity. Qed.
(* thermo/regular_solution.py line 216: d2GE_dxixjs *)
Theorem C27_regular_solution_d2GE_dxixjs (Vs : nat -> R) (SPs : nat -> R) (Hi_sums : nat -> R) (dGE_dxs : nat -> R) (N_ : nat) (GE : R) (coeffs : nat -> nat -> R) (xsVs_sum_inv : R) (d2GE_dxixjs : nat -> nat -> R) (d2GE_dxixjs' : nat -> nat -> R) : forall i j, (i < N_)%nat -> (j < N_)%nat -> (regular_solution_d2GE_dxixjs Vs SPs Hi_sums dGE_dxs N_ GE coeffs xsVs_sum_inv d2GE_dxixjs) i j = (regular_solution_d2GE_dxixjs Vs SPs Hi_sums dGE_dxs N_ GE coeffs xsVs_sum_inv d2GE_dxixjs') i j.
Proof. intros; unfold regular_solution_d2GE_dxixjs; cbv zeta; b1; reflexivity. Qed.
(* thermo/regular_solution.py line 233: d3GE_dxixjxks *)
Theorem C27_regular_solution_d3GE_dxixjxks (Vs : nat -> R) (SPs : nat -> R) (Hi_sums : nat -> R) (dGE_dxs : nat -> R) (N_ : nat) (GE : R) (xsVs_sum_inv : R) (d2GE_dxixjs : nat -> nat -> R) (coeffs : nat -> nat -> R) (d3GE_dxixjxks : nat -> nat -> nat -> R) (d3GE_dxixjxks' : nat -> nat -> nat -> R) : forall i j k, (i < N_)%nat -> (j < N_)%nat -> (k < N_)%nat -> (regular_solution_d3GE_dxixjxks Vs SPs Hi_sums dGE_dxs N_ GE xsVs_sum_inv d2GE_dxixjs coeffs d3GE_dxixjxks) i j k = (regular_solution_d3GE_dxixjxks Vs SPs Hi_sums dGE_dxs N_ GE xsVs_sum_inv d2GE_dxixjs coeffs d3GE_dxixjxks') i j k.
Proof. intros; unfold regular_solution_d3GE_dxixjxks; cbv zeta; b1; reflexivity. Qed.
(* thermo/regular_solution.py line 286: d2GE_dTdxs *)
Theorem C27_flory_huggins_d2GE_dTdxs (xs : nat -> R) (Vs : nat -> R) (d2GE_dTdxs : nat -> R) (N_ : nat) (d2GE_dTdxs' : nat -> R) : forall i, (i < N_)%nat -> (flory_huggins_d2GE_dTdxs xs Vs d2GE_dTdxs N_) i = (flory_huggins_d2GE_dTdxs xs Vs d2GE_dTdxs' N_) i.
Proof. intros; unfold flory_huggins_d2GE_dTdxs; cbv zeta; b1; reflexivity. Qed.
(* thermo/regular_solution.py line 1488: output *)
Theorem C27_hansen_Aijs_His (delta_d : nat -> R) (delta_p : nat -> R) (delta_h : nat -> R) (output : nat -> nat -> R) (alpha : R) (multiplier : R) (N_ : nat) (output' : nat -> nat -> R) : forall i j, (i < N_)%nat -> (j < N_)%nat -> (hansen_Aijs_His delta_d delta_p delta_h output alpha multiplier N_) i j = (hansen_Aijs_His delta_d delta_p delta_h output' alpha multiplier N_) i j.
Proof. intros; unfold hansen_Aijs_His; cbv zeta; b1; reflexivity. Qed.
(* thermo/eos_mix_methods.py line 744: out *)
Theorem C27_eos_mix_dV_dzs (T : R) (P : R) (Z : R) (b : R) (delta : R) (epsilon_ : R) (a_alpha : R) (db_dzs : nat -> R) (ddelta_dzs : nat -> R) (depsilon_dzs : nat -> R) (da_alpha_dzs : nat -> R) (N_ : nat) (out : nat -> R) (out' : nat -> R) : forall i, (i < N_)%nat -> (eos_mix_dV_dzs T P Z b delta epsilon_ a_alpha db_dzs ddelta_dzs depsilon_dzs da_alpha_dzs N_ out) i = (eos_mix_dV_dzs T P Z b delta epsilon_ a_alpha db_dzs ddelta_dzs depsilon_dzs da_alpha_dzs N_ out') i.
Proof. intros; unfold eos_mix_dV_dzs; cbv zeta; b1; reflexivity. Qed.
(* thermo/eos_mix_methods.py line 784: out *)
Theorem C27_G_dep_lnphi_d_helper (T : R) (P : R) (b : R) (delta : R) (epsilon_ : R) (a_alpha : R) (N_ : nat) (Z : R) (dbs : nat -> R) (depsilons : nat -> R) (ddelta : nat -> R) (dVs : nat -> R) (da_alphas : nat -> R) (G : bool) (out : nat -> R) (out' : nat -> R) : forall i, (i < N_)%nat -> (G_dep_lnphi_d_helper T P b delta epsilon_ a_alpha N_ Z dbs depsilons ddelta dVs da_alphas G out) i = (G_dep_lnphi_d_helper T P b delta epsilon_ a_alpha N_ Z dbs depsilons ddelta dVs da_alphas G out') i.
Proof. intros i0 Hi0. unfold G_dep_lnphi_d_helper. cbv zeta. destruct G; cbv beta iota; apply (loop_rel (fun m u v => agV (fun i => (i < m)%nat) u v)); try assumption; try (intros ? ?; lia); intros i u v Hi H; eapply agV_upd; [exact H | reflexivity | cbv beta; intros; lia | exact H | reflexivity | cbv beta; intros; lia]. Qed.
(* thermo/eos_mix_methods.py line 876: out *)
Theorem C27_eos_mix_db_dns (b : R) (bs : nat -> R) (N_ : nat) (out : nat -> R) (out' : nat -> R) : forall i, (i < N_)%nat -> (eos_mix_db_dns b bs N_ out) i = (eos_mix_db_dns b bs N_ out') i.
Proof. intros; unfold eos_mix_db_dns; cbv zeta; b1; reflexivity. Qed.
(* thermo/eos_mix_methods.py line 883: out *)
Theorem C27_eos_mix_da_alpha_dns (a_alpha : R) (a_alpha_j_rows : nat -> R) (N_ : nat) (out : nat -> R) (out' : nat -> R) : forall i, (i < N_)%nat -> (eos_mix_da_alpha_dns a_alpha a_alpha_j_rows N_ out) i = (eos_mix_da_alpha_dns a_alpha a_alpha_j_rows N_ out') i.
Proof. intros; unfold eos_mix_da_alpha_dns; cbv zeta; b1; reflexivity. Qed.
(* thermo/eos_mix_methods.py line 891: out *)
Theorem C27_RK_d3delta_dninjnks (b : R) (bs : nat -> R) (N_ : nat) (out : nat -> nat -> nat -> R) (out' : nat -> nat -> nat -> R) : forall i j k, (i < N_)%nat -> (j < N_)%nat -> (k < N_)%nat -> (RK_d3delta_dninjnks b bs N_ out) i j k = (RK_d3delta_dninjnks b bs N_ out') i j k.
Proof. intros; unfold RK_d3delta_dninjnks; cbv zeta; b1; reflexivity. Qed.
(* thermo/eos_mix_methods.py line 907: out *)
Theorem C27_PR_ddelta_dzs (bs : nat -> R) (N_ : nat) (out : nat -> R) (out' : nat -> R) : forall i, (i < N_)%nat -> (PR_ddelta_dzs bs N_ out) i = (PR_ddelta_dzs bs N_ out') i.
Proof. intros; unfold PR_ddelta_dzs; cbv zeta; b1; reflexivity. Qed.
(* thermo/eos_mix_methods.py line 914: out *)
Theorem C27_PR_ddelta_dns (bs : nat -> R) (b : R) (N_ : nat) (out : nat -> R) (out' : nat -> R) : forall i, (i < N_)%nat -> (PR_ddelta_dns bs b N_ out) i = (PR_ddelta_dns bs b N_ out') i.
Proof. intros; unfold PR_ddelta_dns; cbv zeta; b1; reflexivity. Qed.
(* thermo/eos_mix_methods.py line 922: out *)
Theorem C27_PR_depsilon_dns (b : R) (bs : nat -> R) (N_ : nat) (out : nat -> R) (out' : nat -> R) : forall i, (i < N_)%nat -> (PR_depsilon_dns b bs N_ out) i = (PR_depsilon_dns b bs N_ out') i.
Proof. intros; unfold PR_depsilon_dns; cbv zeta; b1; reflexivity. Qed.
(* thermo/eos_mix_methods.py line 931: out *)
Theorem C27_PR_d2delta_dninjs (b : R) (bs : nat -> R) (N_ : nat) (out : nat -> nat -> R) (out' : nat -> nat -> R) : forall i j, (i < N_)%nat -> (j < N_)%nat -> (PR_d2delta_dninjs b bs N_ out) i j = (PR_d2delta_dninjs b bs N_ out') i j.
Proof. intros; unfold PR_d2delta_dninjs; cbv zeta; b1; reflexivity. Qed.
(* thermo/eos_mix_methods.py line 944: out *)
Theorem C27_PR_d3delta_dninjnks (b : R) (bs : nat -> R) (N_ : nat) (out : nat -> nat -> nat -> R) (out' : nat -> nat -> nat -> R) : forall i j k, (i < N_)%nat -> (j < N_)%nat -> (k < N_)%nat -> (PR_d3delta_dninjnks b bs N_ out) i j k = (PR_d3delta_dninjnks b bs N_ out') i j k.
Proof. intros; unfold PR_d3delta_dninjnks; cbv zeta; b1; reflexivity. Qed.
(* thermo/eos_mix_methods.py line 961: out *)
Theorem C27_PR_d2epsilon_dzizjs (b : R) (bs : nat -> R) (N_ : nat) (out : nat -> nat -> R) (out' : nat -> nat -> R) : forall i j, (i < N_)%nat -> (j < N_)%nat -> (PR_d2epsilon_dzizjs b bs N_ out) i j = (PR_d2epsilon_dzizjs b bs N_ out') i j.
Proof. intros; unfold PR_d2epsilon_dzizjs; cbv zeta; b1; reflexivity. Qed.
(* thermo/eos_mix_methods.py line 973: out *)
Theorem C27_PR_depsilon_dzs (b : R) (bs : nat -> R) (N_ : nat) (out : nat -> R) (out' : nat -> R) : forall i, (i < N_)%nat -> (PR_depsilon_dzs b bs N_ out) i = (PR_depsilon_dzs b bs N_ out') i.
Proof. intros; unfold PR_depsilon_dzs; cbv zeta; b1; reflexivity. Qed.
(* thermo/eos_mix_methods.py line 984: out *)
Theorem C27_PR_d2epsilon_dninjs (b : R) (bs : nat -> R) (N_ : nat) (out : nat -> nat -> R) (out' : nat -> nat -> R) : forall i j, (i < N_)%nat -> (j < N_)%nat -> (PR_d2epsilon_dninjs b bs N_ out) i j = (PR_d2epsilon_dninjs b bs N_ out') i j.
Proof. intros; unfold PR_d2epsilon_dninjs; cbv zeta; b1; reflexivity. Qed.
(* thermo/eos_mix_methods.py line 1004: out *)
Theorem C27_PR_d3epsilon_dninjnks (b : R) (bs : nat -> R) (N_ : nat) (out : nat -> nat -> nat -> R) (out' : nat -> nat -> nat -> R) : forall i j k, (i < N_)%nat -> (j < N_)%nat -> (k < N_)%nat -> (PR_d3epsilon_dninjnks b bs N_ out) i j k = (PR_d3epsilon_dninjnks b bs N_ out') i j k.
Proof. intros; unfold PR_d3epsilon_dninjnks; cbv zeta; b1; reflexivity. Qed.
(* thermo/eos_mix_methods.py line 1030: out *)
Theorem C27_PR_translated_ddelta_dzs (b0s : nat -> R) (cs : nat -> R) (N_ : nat) (out : nat -> R) (out' : nat -> R) : forall i, (i < N_)%nat -> (PR_translated_ddelta_dzs b0s cs N_ out) i = (PR_translated_ddelta_dzs b0s cs N_ out') i.
Proof. intros; unfold PR_translated_ddelta_dzs; cbv zeta; b1; reflexivity. Qed.
(* thermo/eos_mix_methods.py line 1037: out *)
Theorem C27_PR_translated_d2epsilon_dzizjs (b0s : nat -> R) (cs : nat -> R) (N_ : nat) (out : nat -> nat -> R) (out' : nat -> nat -> R) : forall i j, (i < N_)%nat -> (j < N_)%nat -> (PR_translated_d2epsilon_dzizjs b0s cs N_ out) i j = (PR_translated_d2epsilon_dzizjs b0s cs N_ out') i j.
Proof. intros; unfold PR_translated_d2epsilon_dzizjs; cbv zeta; b1; reflexivity. Qed.
(* thermo/eos_mix_methods.py line 1050: out *)
Theorem C27_PR_translated_d2epsilon_dninjs (b0s : nat -> R) (cs : nat -> R) (b : R) (c : R) (N_ : nat) (out : nat -> nat -> R) (out' : nat -> nat -> R) : forall i j, (i < N_)%nat -> (j < N_)%nat -> (PR_translated_d2epsilon_dninjs b0s cs b c N_ out) i j = (PR_translated_d2epsilon_dninjs b0s cs b c N_ out') i j.
Proof. intros; unfold PR_translated_d2epsilon_dninjs; cbv zeta; b1; reflexivity. Qed.
(* thermo/eos_mix_methods.py line 1072: out *)
Theorem C27_PR_translated_ddelta_dns (b0s : nat -> R) (cs : nat -> R) (delta : R) (N_ : nat) (out : nat -> R) (out' : nat -> R) : forall i, (i < N_)%nat -> (PR_translated_ddelta_dns b0s cs delta N_ out) i = (PR_translated_ddelta_dns b0s cs delta N_ out') i.
Proof. intros; unfold PR_translated_ddelta_dns; cbv zeta; b1; reflexivity. Qed.
(* thermo/eos_mix_methods.py line 1079: out *)
Theorem C27_SRK_translated_ddelta_dns (b0s : nat -> R) (cs : nat -> R) (delta : R) (N_ : nat) (out : nat -> R) (out' : nat -> R) : forall i, (i < N_)%nat -> (SRK_translated_ddelta_dns b0s cs delta N_ out) i = (SRK_translated_ddelta_dns b0s cs delta N_ out') i.
Proof. intros; unfold SRK_translated_ddelta_dns; cbv zeta; b1; reflexivity. Qed.
(* thermo/eos_mix_methods.py line 1087: out *)
Theorem C27_SRK_translated_depsilon_dns (b : R) (c : R) (b0s : nat -> R) (cs : nat -> R) (N_ : nat) (out : nat -> R) (out' : nat -> R) : forall i, (i < N_)%nat -> (SRK_translated_depsilon_dns b c b0s cs N_ out) i = (SRK_translated_depsilon_dns b c b0s cs N_ out') i.
Proof. intros; unfold SRK_translated_depsilon_dns; cbv zeta; b1; reflexivity. Qed.
(* thermo/eos_mix_methods.py line 1097: out *)
Theorem C27_SRK_translated_depsilon_dzs (b0s : nat -> R) (cs : nat -> R) (b : R) (c : R) (N_ : nat) (out : nat -> R) (out' : nat -> R) : forall i, (i < N_)%nat -> (SRK_translated_depsilon_dzs b0s cs b c N_ out) i = (SRK_translated_depsilon_dzs b0s cs b c N_ out') i.
Proof. intros; unfold SRK_translated_depsilon_dzs; cbv zeta; b1; reflexivity. Qed.
(* thermo/eos_mix_methods.py line 1106: out *)
Theorem C27_SRK_translated_d2epsilon_dzizjs (b0s : nat -> R) (cs : nat -> R) (b : R) (c : R) (N_ : nat) (out : nat -> nat -> R) (out' : nat -> nat -> R) : forall i j, (i < N_)%nat -> (j < N_)%nat -> (SRK_translated_d2epsilon_dzizjs b0s cs b c N_ out) i j = (SRK_translated_d2epsilon_dzizjs b0s cs b c N_ out') i j.
Proof. intros; unfold SRK_translated_d2epsilon_dzizjs; cbv zeta; b1; reflexivity. Qed.
(* thermo/eos_mix_methods.py line 1121: out *)
Theorem C27_SRK_translated_d2delta_dninjs (b0s : nat -> R) (cs : nat -> R) (b : R) (c : R) (delta : R) (N_ : nat) (out : nat -> nat -> R) (out' : nat -> nat -> R) : forall i j, (i < N_)%nat -> (j < N_)%nat -> (SRK_translated_d2delta_dninjs b0s cs b c delta N_ out) i j = (SRK_translated_d2delta_dninjs b0s cs b c delta N_ out') i j.
Proof. intros; unfold SRK_translated_d2delta_dninjs; cbv zeta; b1; reflexivity. Qed.
(* thermo/eos_mix_methods.py line 1136: out *)
Theorem C27_SRK_translated_d3delta_dninjnks (b0s : nat -> R) (cs : nat -> R) (b : R) (c : R) (delta : R) (N_ : nat) (out : nat -> nat -> nat -> R) (out' : nat -> nat -> nat -> R) : forall i j k, (i < N_)%nat -> (j < N_)%nat -> (k < N_)%nat -> (SRK_translated_d3delta_dninjnks b0s cs b c delta N_ out) i j k = (SRK_translated_d3delta_dninjnks b0s cs b c delta N_ out') i j k.
Proof. intros; unfold SRK_translated_d3delta_dninjnks; cbv zeta; b1; reflexivity. Qed.
(* thermo/eos_mix_methods.py line 1151: out *)
Theorem C27_SRK_translated_d2epsilon_dninjs (b0s : nat -> R) (cs : nat -> R) (b : R) (c : R) (N_ : nat) (out : nat -> nat -> R) (out' : nat -> nat -> R) : forall i j, (i < N_)%nat -> (j < N_)%nat -> (SRK_translated_d2epsilon_dninjs b0s cs b c N_ out) i j = (SRK_translated_d2epsilon_dninjs b0s cs b c N_ out') i j.
Proof. intros; unfold SRK_translated_d2epsilon_dninjs; cbv zeta; b1; reflexivity. Qed.
(* thermo/eos_mix_methods.py line 1168: out *)
Theorem C27_SRK_translated_d3epsilon_dninjnks (b0s : nat -> R) (cs : nat -> R) (b : R) (c : R) (epsilon_ : R) (N_ : nat) (out : nat -> nat -> nat -> R) (out' : nat -> nat -> nat -> R) : forall i j k, (i < N_)%nat -> (j < N_)%nat -> (k < N_)%nat -> (SRK_translated_d3epsilon_dninjnks b0s cs b c epsilon_ N_ out) i j k = (SRK_translated_d3epsilon_dninjnks b0s cs b c epsilon_ N_ out') i j k.
Proof. intros; unfold SRK_translated_d3epsilon_dninjnks; cbv zeta; b1; reflexivity. Qed.
(* thermo/eos_mix_methods.py line 1195: out *)
Theorem C27_PR_translated_depsilon_dzs (c : R) (b : R) (b0s : nat -> R) (cs : nat -> R) (N_ : nat) (out : nat -> R) (out' : nat -> R) : forall i, (i < N_)%nat -> (PR_translated_depsilon_dzs c b b0s cs N_ out) i = (PR_translated_depsilon_dzs c b b0s cs N_ out') i.
Proof. intros; unfold PR_translated_depsilon_dzs; cbv zeta; b1; reflexivity. Qed.
(* thermo/eos_mix_methods.py line 1206: out *)
Theorem C27_PR_translated_depsilon_dns (b : R) (c : R) (b0s : nat -> R) (cs : nat -> R) (N_ : nat) (out : nat -> R) (out' : nat -> R) : forall i, (i < N_)%nat -> (PR_translated_depsilon_dns b c b0s cs N_ out) i = (PR_translated_depsilon_dns b c b0s cs N_ out') i.
Proof. intros; unfold PR_translated_depsilon_dns; cbv zeta; b1; reflexivity. Qed.
(* thermo/eos_mix_methods.py line 1217: out *)
Theorem C27_PR_translated_d2delta_dninjs (b0s : nat -> R) (cs : nat -> R) (b : R) (c : R) (delta : R) (N_ : nat) (out : nat -> nat -> R) (out' : nat -> nat -> R) : forall i j, (i < N_)%nat -> (j < N_)%nat -> (PR_translated_d2delta_dninjs b0s cs b c delta N_ out) i j = (PR_translated_d2delta_dninjs b0s cs b c delta N_ out') i j.
Proof. intros; unfold PR_translated_d2delta_dninjs; cbv zeta; b1; reflexivity. Qed.
(* thermo/eos_mix_methods.py line 1230: out *)
Theorem C27_PR_translated_d3delta_dninjnks (b0s : nat -> R) (cs : nat -> R) (delta : R) (N_ : nat) (out : nat -> nat -> nat -> R) (out' : nat -> nat -> nat -> R) : forall i j k, (i < N_)%nat -> (j < N_)%nat -> (k < N_)%nat -> (PR_translated_d3delta_dninjnks b0s cs delta N_ out) i j k = (PR_translated_d3delta_dninjnks b0s cs delta N_ out') i j k.
Proof. intros; unfold PR_translated_d3delta_dninjnks; cbv zeta; b1; reflexivity. Qed.
(* thermo/eos_mix_methods.py line 1248: out *)
Theorem C27_PR_translated_d3epsilon_dninjnks (b0s : nat -> R) (cs : nat -> R) (b : R) (c : R) (epsilon_ : R) (N_ : nat) (out : nat -> nat -> nat -> R) (out' : nat -> nat -> nat -> R) : forall i j k, (i < N_)%nat -> (j < N_)%nat -> (k < N_)%nat -> (PR_translated_d3epsilon_dninjnks b0s cs b c epsilon_ N_ out) i j k = (PR_translated_d3epsilon_dninjnks b0s cs b c epsilon_ N_ out') i j k.
Proof. intros; unfold PR_translated_d3epsilon_dninjnks; cbv zeta; b1; reflexivity. Qed.
(* thermo/eos_mix_methods.py line 1318: lnphis *)
Theorem C27_SRK_lnphis (T : R) (P : R) (Z : R) (b : R) (a_alpha : R) (bs : nat -> R) (a_alpha_j_rows : nat -> R) (N_ : nat) (lnphis : nat -> R) (lnphis' : nat -> R) : forall i, (i < N_)%nat -> (SRK_lnphis T P Z b a_alpha bs a_alpha_j_rows N_ lnphis) i = (SRK_lnphis T P Z b a_alpha bs a_alpha_j_rows N_ lnphis') i.
Proof. intros; unfold SRK_lnphis; cbv zeta; b1; reflexivity. Qed.
(* thermo/eos_mix_methods.py line 1338: lnphis *)
Theorem C27_VDW_lnphis (T : R) (P : R) (Z : R) (b : R) (a_alpha : R) (bs : nat -> R) (a_alpha_roots : nat -> R) (N_ : nat) (lnphis : nat -> R) (lnphis' : nat -> R) : forall i, (i < N_)%nat -> (VDW_lnphis T P Z b a_alpha bs a_alpha_roots N_ lnphis) i = (VDW_lnphis T P Z b a_alpha bs a_alpha_roots N_ lnphis') i.
Proof. intros; unfold VDW_lnphis; cbv zeta; b1; reflexivity. Qed.
(* thermo/eos_mix_methods.py line 1351: lnphis *)
Theorem C27_eos_mix_lnphis_general (T : R) (P : R) (Z : R) (b : R) (delta : R) (epsilon_ : R) (a_alpha : R) (N_ : nat) (db_dns : nat -> R) (da_alpha_dns : nat -> R) (ddelta_dns : nat -> R) (depsilon_dns : nat -> R) (lnphis : nat -> R) (lnphis' : nat -> R) : forall i, (i < N_)%nat -> (eos_mix_lnphis_general T P Z b delta epsilon_ a_alpha N_ db_dns da_alpha_dns ddelta_dns depsilon_dns lnphis) i = (eos_mix_lnphis_general T P Z b delta epsilon_ a_alpha N_ db_dns da_alpha_dns ddelta_dns depsilon_dns lnphis') i.
Proof. intros; unfold eos_mix_lnphis_general; cbv zeta; b1; reflexivity. Qed.
(* thermo/eos_alpha_functions.py line 230: a_alphas *)
Theorem C27_PR_a_alphas_vectorized (T : R) (Tcs : nat -> R) (ais : nat -> R) (kappas : nat -> R) (a_alphas : nat -> R) (N_ : nat) (a_alphas' : nat -> R) : forall i, (i < N_)%nat -> (PR_a_alphas_vectorized T Tcs ais kappas a_alphas N_) i = (PR_a_alphas_vectorized T Tcs ais kappas a_alphas' N_) i.
Proof. intros; unfold PR_a_alphas_vectorized; cbv zeta; b1; reflexivity. Qed.
(* thermo/eos_alpha_functions.py line 282: a_alphas, da_alpha_dTs, d2a_alpha_dT2s *)
Theorem C27_PR_a_alpha_and_derivatives_vectorized (T : R) (Tcs : nat -> R) (ais : nat -> R) (kappas : nat -> R) (a_alphas : nat -> R) (da_alpha_dTs : nat -> R) (d2a_alpha_dT2s : nat -> R) (N_ : nat) (a_alphas' : nat -> R) (da_alpha_dTs' : nat -> R) (d2a_alpha_dT2s' : nat -> R) : (forall i, (i < N_)%nat -> (fst (fst (PR_a_alpha_and_derivatives_vectorized T Tcs ais kappas a_alphas da_alpha_dTs d2a_alpha_dT2s N_))) i = (fst (fst (PR_a_alpha_and_derivatives_vectorized T Tcs ais kappas a_alphas' da_alpha_dTs' d2a_alpha_dT2s' N_))) i) /\ (forall i, (i < N_)%nat -> (snd (fst (PR_a_alpha_and_derivatives_vectorized T Tcs ais kappas a_alphas da_alpha_dTs d2a_alpha_dT2s N_))) i = (snd (fst (PR_a_alpha_and_derivatives_vectorized T Tcs ais kappas a_alphas' da_alpha_dTs' d2a_alpha_dT2s' N_))) i) /\ (forall i, (i < N_)%nat -> (snd (PR_a_alpha_and_derivatives_vectorized T Tcs ais kappas a_alphas da_alpha_dTs d2a_alpha_dT2s N_)) i = (snd (PR_a_alpha_and_derivatives_vectorized T Tcs ais kappas a_alphas' da_alpha_dTs' d2a_alpha_dT2s' N_)) i).
Proof. unfold PR_a_alpha_and_derivatives_vectorized; cbv zeta.
  match goal with |- context[loop N_ ?f (a_alphas, da_alpha_dTs, d2a_alpha_dT2s)] => pose proof (fill3 N_ f a_alphas da_alpha_dTs d2a_alpha_dT2s a_alphas' da_alpha_dTs' d2a_alpha_dT2s') as H end.
  match type of H with ?P -> _ => assert (HP : P) by (intros ?; do 3 eexists; intros; cbv beta iota zeta; reflexivity) end. specialize (H HP). clear HP. cbv zeta in H.
  destruct (loop N_ _ (a_alphas, da_alpha_dTs, d2a_alpha_dT2s)) as [[? ?] ?], (loop N_ _ (a_alphas', da_alpha_dTs', d2a_alpha_dT2s')) as [[? ?] ?]. cbn [fst snd] in H |- *. splits; intros i Hi; apply (H i Hi). Qed.
(* thermo/eos_alpha_functions.py line 360: a_alphas *)
Theorem C27_SRK_a_alphas_vectorized (T : R) (Tcs : nat -> R) (ais : nat -> R) (ms : nat -> R) (a_alphas : nat -> R) (N_ : nat) (a_alphas' : nat -> R) : forall i, (i < N_)%nat -> (SRK_a_alphas_vectorized T Tcs ais ms a_alphas N_) i = (SRK_a_alphas_vectorized T Tcs ais ms a_alphas' N_) i.
Proof. intros; unfold SRK_a_alphas_vectorized; cbv zeta; b1; reflexivity. Qed.
(* thermo/eos_alpha_functions.py line 408: a_alphas, da_alpha_dTs, d2a_alpha_dT2s *)
Theorem C27_SRK_a_alpha_and_derivatives_vectorized (T : R) (Tcs : nat -> R) (ais : nat -> R) (ms : nat -> R) (a_alphas : nat -> R) (da_alpha_dTs : nat -> R) (d2a_alpha_dT2s : nat -> R) (N_ : nat) (a_alphas' : nat -> R) (da_alpha_dTs' : nat -> R) (d2a_alpha_dT2s' : nat -> R) : (forall i, (i < N_)%nat -> (fst (fst (SRK_a_alpha_and_derivatives_vectorized T Tcs ais ms a_alphas da_alpha_dTs d2a_alpha_dT2s N_))) i = (fst (fst (SRK_a_alpha_and_derivatives_vectorized T Tcs ais ms a_alphas' da_alpha_dTs' d2a_alpha_dT2s' N_))) i) /\ (forall i, (i < N_)%nat -> (snd (fst (SRK_a_alpha_and_derivatives_vectorized T Tcs ais ms a_alphas da_alpha_dTs d2a_alpha_dT2s N_))) i = (snd (fst (SRK_a_alpha_and_derivatives_vectorized T Tcs ais ms a_alphas' da_alpha_dTs' d2a_alpha_dT2s' N_))) i) /\ (forall i, (i < N_)%nat -> (snd (SRK_a_alpha_and_derivatives_vectorized T Tcs ais ms a_alphas da_alpha_dTs d2a_alpha_dT2s N_)) i = (snd (SRK_a_alpha_and_derivatives_vectorized T Tcs ais ms a_alphas' da_alpha_dTs' d2a_alpha_dT2s' N_)) i).
Proof. unfold SRK_a_alpha_and_derivatives_vectorized; cbv zeta.
  match goal with |- context[loop N_ ?f (a_alphas, da_alpha_dTs, d2a_alpha_dT2s)] => pose proof (fill3 N_ f a_alphas da_alpha_dTs d2a_alpha_dT2s a_alphas' da_alpha_dTs' d2a_alpha_dT2s') as H end.
  match type of H with ?P -> _ => assert (HP : P) by (intros ?; do 3 eexists; intros; cbv beta iota zeta; reflexivity) end. specialize (H HP). clear HP. cbv zeta in H.
  destruct (loop N_ _ (a_alphas, da_alpha_dTs, d2a_alpha_dT2s)) as [[? ?] ?], (loop N_ _ (a_alphas', da_alpha_dTs', d2a_alpha_dT2s')) as [[? ?] ?]. cbn [fst snd] in H |- *. splits; intros i Hi; apply (H i Hi). Qed.
(* thermo/eos_alpha_functions.py line 487: a_alphas *)
Theorem C27_RK_a_alphas_vectorized (T : R) (Tcs : nat -> R) (ais : nat -> R) (a_alphas : nat -> R) (N_ : nat) (a_alphas' : nat -> R) : forall i, (i < N_)%nat -> (RK_a_alphas_vectorized T Tcs ais a_alphas N_) i = (RK_a_alphas_vectorized T Tcs ais a_alphas' N_) i.
Proof. intros; unfold RK_a_alphas_vectorized; cbv zeta; b1; reflexivity. Qed.
(* thermo/eos_alpha_functions.py line 527: a_alphas, da_alpha_dTs, d2a_alpha_dT2s *)
Theorem C27_RK_a_alpha_and_derivatives_vectorized (T : R) (Tcs : nat -> R) (ais : nat -> R) (a_alphas : nat -> R) (da_alpha_dTs : nat -> R) (d2a_alpha_dT2s : nat -> R) (N_ : nat) (a_alphas' : nat -> R) (da_alpha_dTs' : nat -> R) (d2a_alpha_dT2s' : nat -> R) : (forall i, (i < N_)%nat -> (fst (fst (RK_a_alpha_and_derivatives_vectorized T Tcs ais a_alphas da_alpha_dTs d2a_alpha_dT2s N_))) i = (fst (fst (RK_a_alpha_and_derivatives_vectorized T Tcs ais a_alphas' da_alpha_dTs' d2a_alpha_dT2s' N_))) i) /\ (forall i, (i < N_)%nat -> (snd (fst (RK_a_alpha_and_derivatives_vectorized T Tcs ais a_alphas da_alpha_dTs d2a_alpha_dT2s N_))) i = (snd (fst (RK_a_alpha_and_derivatives_vectorized T Tcs ais a_alphas' da_alpha_dTs' d2a_alpha_dT2s' N_))) i) /\ (forall i, (i < N_)%nat -> (snd (RK_a_alpha_and_derivatives_vectorized T Tcs ais a_alphas da_alpha_dTs d2a_alpha_dT2s N_)) i = (snd (RK_a_alpha_and_derivatives_vectorized T Tcs ais a_alphas' da_alpha_dTs' d2a_alpha_dT2s' N_)) i).
Proof. unfold RK_a_alpha_and_derivatives_vectorized; cbv zeta.
  match goal with |- context[loop N_ ?f (a_alphas, da_alpha_dTs, d2a_alpha_dT2s)] => pose proof (fill3 N_ f a_alphas da_alpha_dTs d2a_alpha_dT2s a_alphas' da_alpha_dTs' d2a_alpha_dT2s') as H end.
  match type of H with ?P -> _ => assert (HP : P) by (intros ?; do 3 eexists; intros; cbv beta iota zeta; reflexivity) end. specialize (H HP). clear HP. cbv zeta in H.
  destruct (loop N_ _ (a_alphas, da_alpha_dTs, d2a_alpha_dT2s)) as [[? ?] ?], (loop N_ _ (a_alphas', da_alpha_dTs', d2a_alpha_dT2s')) as [[? ?] ?]. cbn [fst snd] in H |- *. splits; intros i Hi; apply (H i Hi). Qed.
(* thermo/eos_alpha_functions.py line 595: a_alphas *)
Theorem C27_PRSV_a_alphas_vectorized (T : R) (Tcs : nat -> R) (ais : nat -> R) (kappa0s : nat -> R) (kappa1s : nat -> R) (a_alphas : nat -> R) (N_ : nat) (a_alphas' : nat -> R) : forall i, (i < N_)%nat -> (PRSV_a_alphas_vectorized T Tcs ais kappa0s kappa1s a_alphas N_) i = (PRSV_a_alphas_vectorized T Tcs ais kappa0s kappa1s a_alphas' N_) i.
Proof. intros; unfold PRSV_a_alphas_vectorized; cbv zeta; b1; reflexivity. Qed.
(* thermo/eos_alpha_functions.py line 650: a_alphas, da_alpha_dTs, d2a_alpha_dT2s *)
Theorem C27_PRSV_a_alpha_and_derivatives_vectorized (T : R) (Tcs : nat -> R) (ais : nat -> R) (kappa0s : nat -> R) (kappa1s : nat -> R) (a_alphas : nat -> R) (da_alpha_dTs : nat -> R) (d2a_alpha_dT2s : nat -> R) (N_ : nat) (a_alphas' : nat -> R) (da_alpha_dTs' : nat -> R) (d2a_alpha_dT2s' : nat -> R) : (forall i, (i < N_)%nat -> (fst (fst (PRSV_a_alpha_and_derivatives_vectorized T Tcs ais kappa0s kappa1s a_alphas da_alpha_dTs d2a_alpha_dT2s N_))) i = (fst (fst (PRSV_a_alpha_and_derivatives_vectorized T Tcs ais kappa0s kappa1s a_alphas' da_alpha_dTs' d2a_alpha_dT2s' N_))) i) /\ (forall i, (i < N_)%nat -> (snd (fst (PRSV_a_alpha_and_derivatives_vectorized T Tcs ais kappa0s kappa1s a_alphas da_alpha_dTs d2a_alpha_dT2s N_))) i = (snd (fst (PRSV_a_alpha_and_derivatives_vectorized T Tcs ais kappa0s kappa1s a_alphas' da_alpha_dTs' d2a_alpha_dT2s' N_))) i) /\ (forall i, (i < N_)%nat -> (snd (PRSV_a_alpha_and_derivatives_vectorized T Tcs ais kappa0s kappa1s a_alphas da_alpha_dTs d2a_alpha_dT2s N_)) i = (snd (PRSV_a_alpha_and_derivatives_vectorized T Tcs ais kappa0s kappa1s a_alphas' da_alpha_dTs' d2a_alpha_dT2s' N_)) i).
Proof. unfold PRSV_a_alpha_and_derivatives_vectorized; cbv zeta.
  match goal with |- context[loop N_ ?f (a_alphas, da_alpha_dTs, d2a_alpha_dT2s)] => pose proof (fill3 N_ f a_alphas da_alpha_dTs d2a_alpha_dT2s a_alphas' da_alpha_dTs' d2a_alpha_dT2s') as H end.
  match type of H with ?P -> _ => assert (HP : P) by (intros ?; do 3 eexists; intros; cbv beta iota zeta; reflexivity) end. specialize (H HP). clear HP. cbv zeta in H.
  destruct (loop N_ _ (a_alphas, da_alpha_dTs, d2a_alpha_dT2s)) as [[? ?] ?], (loop N_ _ (a_alphas', da_alpha_dTs', d2a_alpha_dT2s')) as [[? ?] ?]. cbn [fst snd] in H |- *. splits; intros i Hi; apply (H i Hi). Qed.
(* thermo/eos_alpha_functions.py line 776: a_alphas *)
Theorem C27_PRSV2_a_alphas_vectorized (T : R) (Tcs : nat -> R) (ais : nat -> R) (kappa0s : nat -> R) (kappa1s : nat -> R) (kappa2s : nat -> R) (kappa3s : nat -> R) (a_alphas : nat -> R) (N_ : nat) (a_alphas' : nat -> R) : forall i, (i < N_)%nat -> (PRSV2_a_alphas_vectorized T Tcs ais kappa0s kappa1s kappa2s kappa3s a_alphas N_) i = (PRSV2_a_alphas_vectorized T Tcs ais kappa0s kappa1s kappa2s kappa3s a_alphas' N_) i.
Proof. intros; unfold PRSV2_a_alphas_vectorized; cbv zeta; b1; reflexivity. Qed.
(* thermo/eos_alpha_functions.py line 835: a_alphas, da_alpha_dTs, d2a_alpha_dT2s *)
Theorem C27_PRSV2_a_alpha_and_derivatives_vectorized (T : R) (Tcs : nat -> R) (ais : nat -> R) (kappa0s : nat -> R) (kappa1s : nat -> R) (kappa2s : nat -> R) (kappa3s : nat -> R) (a_alphas : nat -> R) (da_alpha_dTs : nat -> R) (d2a_alpha_dT2s : nat -> R) (N_ : nat) (a_alphas' : nat -> R) (da_alpha_dTs' : nat -> R) (d2a_alpha_dT2s' : nat -> R) : (forall i, (i < N_)%nat -> (fst (fst (PRSV2_a_alpha_and_derivatives_vectorized T Tcs ais kappa0s kappa1s kappa2s kappa3s a_alphas da_alpha_dTs d2a_alpha_dT2s N_))) i = (fst (fst (PRSV2_a_alpha_and_derivatives_vectorized T Tcs ais kappa0s kappa1s kappa2s kappa3s a_alphas' da_alpha_dTs' d2a_alpha_dT2s' N_))) i) /\ (forall i, (i < N_)%nat -> (snd (fst (PRSV2_a_alpha_and_derivatives_vectorized T Tcs ais kappa0s kappa1s kappa2s kappa3s a_alphas da_alpha_dTs d2a_alpha_dT2s N_))) i = (snd (fst (PRSV2_a_alpha_and_derivatives_vectorized T Tcs ais kappa0s kappa1s kappa2s kappa3s a_alphas' da_alpha_dTs' d2a_alpha_dT2s' N_))) i) /\ (forall i, (i < N_)%nat -> (snd (PRSV2_a_alpha_and_derivatives_vectorized T Tcs ais kappa0s kappa1s kappa2s kappa3s a_alphas da_alpha_dTs d2a_alpha_dT2s N_)) i = (snd (PRSV2_a_alpha_and_derivatives_vectorized T Tcs ais kappa0s kappa1s kappa2s kappa3s a_alphas' da_alpha_dTs' d2a_alpha_dT2s' N_)) i).
Proof. unfold PRSV2_a_alpha_and_derivatives_vectorized; cbv zeta.
  match goal with |- context[loop N_ ?f (a_alphas, da_alpha_dTs, d2a_alpha_dT2s)] => pose proof (fill3 N_ f a_alphas da_alpha_dTs d2a_alpha_dT2s a_alphas' da_alpha_dTs' d2a_alpha_dT2s') as H end.
  match type of H with ?P -> _ => assert (HP : P) by (intros ?; do 3 eexists; intros; cbv beta iota zeta; reflexivity) end. specialize (H HP). clear HP. cbv zeta in H.
  destruct (loop N_ _ (a_alphas, da_alpha_dTs, d2a_alpha_dT2s)) as [[? ?] ?], (loop N_ _ (a_alphas', da_alpha_dTs', d2a_alpha_dT2s')) as [[? ?] ?]. cbn [fst snd] in H |- *. splits; intros i Hi; apply (H i Hi). Qed.
(* thermo/eos_alpha_functions.py line 1010: a_alphas *)
Theorem C27_APISRK_a_alphas_vectorized (T : R) (Tcs : nat -> R) (ais : nat -> R) (S1s : nat -> R) (S2s : nat -> R) (a_alphas : nat -> R) (N_ : nat) (a_alphas' : nat -> R) : forall i, (i < N_)%nat -> (APISRK_a_alphas_vectorized T Tcs ais S1s S2s a_alphas N_) i = (APISRK_a_alphas_vectorized T Tcs ais S1s S2s a_alphas' N_) i.
Proof. intros; unfold APISRK_a_alphas_vectorized; cbv zeta; b1; reflexivity. Qed.
(* thermo/eos_alpha_functions.py line 1059: a_alphas, da_alpha_dTs, d2a_alpha_dT2s *)
Theorem C27_APISRK_a_alpha_and_derivatives_vectorized (T : R) (Tcs : nat -> R) (ais : nat -> R) (S1s : nat -> R) (S2s : nat -> R) (a_alphas : nat -> R) (da_alpha_dTs : nat -> R) (d2a_alpha_dT2s : nat -> R) (N_ : nat) (a_alphas' : nat -> R) (da_alpha_dTs' : nat -> R) (d2a_alpha_dT2s' : nat -> R) : (forall i, (i < N_)%nat -> (fst (fst (APISRK_a_alpha_and_derivatives_vectorized T Tcs ais S1s S2s a_alphas da_alpha_dTs d2a_alpha_dT2s N_))) i = (fst (fst (APISRK_a_alpha_and_derivatives_vectorized T Tcs ais S1s S2s a_alphas' da_alpha_dTs' d2a_alpha_dT2s' N_))) i) /\ (forall i, (i < N_)%nat -> (snd (fst (APISRK_a_alpha_and_derivatives_vectorized T Tcs ais S1s S2s a_alphas da_alpha_dTs d2a_alpha_dT2s N_))) i = (snd (fst (APISRK_a_alpha_and_derivatives_vectorized T Tcs ais S1s S2s a_alphas' da_alpha_dTs' d2a_alpha_dT2s' N_))) i) /\ (forall i, (i < N_)%nat -> (snd (APISRK_a_alpha_and_derivatives_vectorized T Tcs ais S1s S2s a_alphas da_alpha_dTs d2a_alpha_dT2s N_)) i = (snd (APISRK_a_alpha_and_derivatives_vectorized T Tcs ais S1s S2s a_alphas' da_alpha_dTs' d2a_alpha_dT2s' N_)) i).
Proof. unfold APISRK_a_alpha_and_derivatives_vectorized; cbv zeta.
  match goal with |- context[loop N_ ?f (a_alphas, da_alpha_dTs, d2a_alpha_dT2s)] => pose proof (fill3 N_ f a_alphas da_alpha_dTs d2a_alpha_dT2s a_alphas' da_alpha_dTs' d2a_alpha_dT2s') as H end.
  match type of H with ?P -> _ => assert (HP : P) by (intros ?; do 3 eexists; intros; cbv beta iota zeta; reflexivity) end. specialize (H HP). clear HP. cbv zeta in H.
  destruct (loop N_ _ (a_alphas, da_alpha_dTs, d2a_alpha_dT2s)) as [[? ?] ?], (loop N_ _ (a_alphas', da_alpha_dTs', d2a_alpha_dT2s')) as [[? ?] ?]. cbn [fst snd] in H |- *. splits; intros i Hi; apply (H i Hi). Qed.
(* thermo/nrtl.py line 66: xj_Gs_jis, xj_Gs_taus_jis, gammas, vec0, vec1 *)
Theorem C27_nrtl_gammas_from_args (xs : nat -> R) (N_ : nat) (Gs : nat -> nat -> R) (taus : nat -> nat -> R) (Gs_transposed : nat -> nat -> R) (Gs_taus_transposed : nat -> nat -> R) (Gs_taus : nat -> nat -> R) (xj_Gs_jis : nat -> R) (xj_Gs_taus_jis : nat -> R) (vec0 : nat -> R) (vec1 : nat -> R) (gammas : nat -> R) (xj_Gs_jis' : nat -> R) (xj_Gs_taus_jis' : nat -> R) (vec0' : nat -> R) (vec1' : nat -> R) (gammas' : nat -> R) : forall i, (i < N_)%nat -> (nrtl_gammas_from_args xs N_ Gs taus Gs_transposed Gs_taus_transposed Gs_taus xj_Gs_jis xj_Gs_taus_jis vec0 vec1 gammas) i = (nrtl_gammas_from_args xs N_ Gs taus Gs_transposed Gs_taus_transposed Gs_taus xj_Gs_jis' xj_Gs_taus_jis' vec0' vec1' gammas') i.
Proof. intros. unfold nrtl_gammas_from_args.
  destruct (C27_nrtl_xj_Gs_jis_and_Gs_taus_jis N_ xs Gs taus Gs_transposed Gs_taus_transposed xj_Gs_jis xj_Gs_taus_jis xj_Gs_jis' xj_Gs_taus_jis') as [H1 H2].
  destruct (nrtl_xj_Gs_jis_and_Gs_taus_jis N_ xs Gs taus Gs_transposed Gs_taus_transposed xj_Gs_jis xj_Gs_taus_jis) as [a b], (nrtl_xj_Gs_jis_and_Gs_taus_jis N_ xs Gs taus Gs_transposed Gs_taus_transposed xj_Gs_jis' xj_Gs_taus_jis') as [a' b'].
  cbn [fst snd] in H1, H2. cbv zeta. unfold nrtl_gammas. cbv zeta. rewrite !(loop_upd_lt N_) by assumption. rewrite !(loop_upd_self N_ (fun _ z => 1 / z)) by assumption.
  apply f_equal. rewrite H1, H2 by assumption. apply loop_ext. intros. rewrite !(loop_upd_lt N_) by assumption. rewrite !(loop_upd_self N_ (fun _ z => 1 / z)) by assumption. rewrite H1, H2 by assumption. reflexivity. Qed.
(* thermo/regular_solution.py line 302: dGE_dxs *)
Theorem C27_flory_huggins_dGE_dxs (xs : nat -> R) (Vs : nat -> R) (Hi_sums : nat -> R) (N_ : nat) (xsVs_sum_inv : R) (GE : R) (T : R) (dGE_dxs : nat -> R) (dGE_dxs' : nat -> R) : forall i, (i < N_)%nat -> (flory_huggins_dGE_dxs xs Vs Hi_sums N_ xsVs_sum_inv GE T dGE_dxs) i = (flory_huggins_dGE_dxs xs Vs Hi_sums N_ xsVs_sum_inv GE T dGE_dxs') i.
Proof. intros. unfold flory_huggins_dGE_dxs. cbv zeta. rewrite !(loop_upd_self N_ (fun i z => z + Rgas * T * (ln (Vs i * xsVs_sum_inv) - Vs i * xsVs_sum_inv))) by assumption. rewrite (C27_regular_solution_dGE_dxs _ _ _ _ _ dGE_dxs dGE_dxs') by assumption. reflexivity. Qed.
(* thermo/regular_solution.py line 322: d2GE_dxixjs *)
Theorem C27_flory_huggins_d2GE_dxixjs (GE : R) (xs : nat -> R) (Vs : nat -> R) (SPs : nat -> R) (Hi_sums : nat -> R) (N_ : nat) (T : R) (lambda_coeffs : nat -> nat -> R) (xsVs_sum_inv : R) (d2GE_dxixjs : nat -> nat -> R) (d2GE_dxixjs' : nat -> nat -> R) : forall i j, (i < N_)%nat -> (j < N_)%nat -> (flory_huggins_d2GE_dxixjs GE xs Vs SPs Hi_sums N_ T lambda_coeffs xsVs_sum_inv d2GE_dxixjs) i j = (flory_huggins_d2GE_dxixjs GE xs Vs SPs Hi_sums N_ T lambda_coeffs xsVs_sum_inv d2GE_dxixjs') i j.
Proof. intros. unfold flory_huggins_d2GE_dxixjs. cbv zeta. rewrite !(loop_updm_self N_ (fun i j z => z + Rgas * T * xsVs_sum_inv * (Vs i * xsVs_sum_inv * Vs j - Vs i - Vs j))) by assumption. rewrite (C27_regular_solution_d2GE_dxixjs _ _ _ _ _ _ _ _ d2GE_dxixjs d2GE_dxixjs') by assumption. reflexivity. Qed.
(* thermo/regular_solution.py line 352: d3GE_dxixjxks *)
Theorem C27_flory_huggins_d3GE_dxixjxks (xs : nat -> R) (Vs : nat -> R) (SPs : nat -> R) (Hi_sums : nat -> R) (N_ : nat) (T : R) (GE : R) (xsVs_sum_inv : R) (lambda_coeffs : nat -> nat -> R) (d3GE_dxixjxks : nat -> nat -> nat -> R) (d3GE_dxixjxks' : nat -> nat -> nat -> R) : forall i j k, (i < N_)%nat -> (j < N_)%nat -> (k < N_)%nat -> (flory_huggins_d3GE_dxixjxks xs Vs SPs Hi_sums N_ T GE xsVs_sum_inv lambda_coeffs d3GE_dxixjxks) i j k = (flory_huggins_d3GE_dxixjxks xs Vs SPs Hi_sums N_ T GE xsVs_sum_inv lambda_coeffs d3GE_dxixjxks') i j k.
Proof. intros i0 j0 k0 Hi0 Hj0 Hk0. unfold flory_huggins_d3GE_dxixjxks. cbv zeta.
  match goal with |- ?a i0 j0 k0 = ?b i0 j0 k0 => assert (E : agT (fun i j k => (i < N_ /\ j < N_ /\ k < N_)%nat) a b); [|apply E; auto] end.
  apply (loop_rel (fun _ u v => agT (fun i j k => (i < N_ /\ j < N_ /\ k < N_)%nat) u v)).
  - intros i j k (? & ? & ?). apply C27_regular_solution_d3GE_dxixjxks; assumption.
  - intros i u v Hi H. apply (loop_rel (fun _ u v => agT (fun i j k => (i < N_ /\ j < N_ /\ k < N_)%nat) u v)); [exact H|]. clear u v H. intros j u v Hj H.
    apply (loop_rel (fun _ u v => agT (fun i j k => (i < N_ /\ j < N_ /\ k < N_)%nat) u v)); [exact H|]. clear u v H. intros k u v Hk H.
    eapply agT_upd; [exact H| |cbv beta; intros; tauto]. now rewrite (H i j k) by auto. Qed.
(* thermo/eos_mix_methods.py line 1284: lnphis.  When the attraction term vanishes only the first entry is written before returning. *)
Theorem C27_PR_lnphis (T P Z b a_alpha : R) (bs rows : nat -> R) (N : nat) (lnphis lnphis' : nat -> R) : T <> 0 -> P <> 0 -> b <> 0 -> a_alpha <> 0 ->
  forall i, (i < N)%nat -> PR_lnphis T P Z b a_alpha bs rows N lnphis i = PR_lnphis T P Z b a_alpha bs rows N lnphis' i.
Proof.
  intros HT HP Hb Ha i Hi. unfold PR_lnphis. cbv zeta.
  rewrite Reqb_false. 2: { pose proof Rgas_pos. pose proof (sqrt_lt_R0 2 ltac:(lra)) as S2. assert (b * (P * (1 / T)) * (1 / Rgas) <> 0) as Q. { apply Rmult_integral_contrapositive_currified. apply Rmult_integral_contrapositive_currified; auto. apply Rmult_integral_contrapositive_currified; auto. unfold Rdiv. rewrite Rmult_1_l. now apply Rinv_neq_0_compat. unfold Rdiv. rewrite Rmult_1_l. apply Rinv_neq_0_compat. lra. }
    intros E. apply Rmult_integral in E. destruct E as [|E]; [contradiction|]. set (q := b * (P * (1 / T)) * (1 / Rgas)) in *. assert (2 * (q * sqrt 2) = 0) as E2 by lra. apply Rmult_integral in E2. destruct E2 as [|E2]; [lra|]. apply Rmult_integral in E2. destruct E2; [contradiction|lra]. }
  cbv [negb]. rewrite !(loop_upd_lt N) by assumption. reflexivity.
Qed.
Theorem C27_PR_lnphis_refuted : exists T P Z b a_alpha bs rows lnphis lnphis', 0 < T /\ 0 < P /\ 0 < b /\ 0 < Z /\ PR_lnphis T P Z b a_alpha bs rows 2 lnphis 1%nat <> PR_lnphis T P Z b a_alpha bs rows 2 lnphis' 1%nat.
Proof.
  exists 1, 1, 1, 1, 0, (fun _ => 1), (fun _ => 0), (fun _ => 0), (fun _ => 1). splits; try lra. unfold PR_lnphis. cbv zeta. rewrite Reqb_true by ring. cbv [negb]. unfold upd. cbn [Nat.eqb]. lra.
Qed.
(* wilson_gammas (thermo/wilson.py line 190) adds to the caller's output list *)
Theorem C27_wilson_gammas_refuted : exists xs lambdas inv vec0 gammas, (forall i, xs i = 1) /\ wilson_gammas xs 1 lambdas inv gammas vec0 0%nat <> wilson_gammas xs 1 lambdas inv (fun _ => 0) vec0 0%nat.
Proof.
  exists (fun _ => 1), (fun _ _ => 1), (fun _ => 1), (fun _ => 0), (fun _ => 1). split; [reflexivity|]. unfold wilson_gammas. cbv zeta. cbn [loop]. unfold upd. cbn [Nat.eqb]. rewrite !Rmult_1_r. intros H. apply exp_inv in H. lra.
Qed.
(* the two runs compared above really start from different lists and do work *)
Example C27_hypotheses_met : exists xs GE, (1 < 2)%nat /\ gibbs_excess_gammas xs (fun _ => 0) GE 300 (fun _ => 5) 2 1%nat = gibbs_excess_gammas xs (fun _ => 0) GE 300 (fun _ => -7) 2 1%nat /\ gibbs_excess_gammas xs (fun _ => 0) GE 300 (fun _ => 5) 2 1%nat <> 5.
Proof.
  exists (fun _ => 1 / 2), 0. splits; [lia| apply C27_gibbs_excess_gammas; lia |]. unfold gibbs_excess_gammas. cbv zeta. cbn [loop]. unfold upd. cbn [Nat.eqb].
  match goal with |- exp ?a <> _ => replace a with 0 by (field; pose proof Rgas_pos; lra) end. rewrite exp_0. lra.
Qed.
