(* Facts about the fit forms: derivatives of Chebyshev sums, of exponentials and of functions of ln(1 - T/Tc), antiderivatives of polynomials. *)
From Coq Require Import Reals Arith List Bool Lra Lia FunctionalExtensionality.
From Coquelicot Require Import Coquelicot.
From Coq Require Import List.
From Verif Require Import Base BaseFacts Model_tdep TdepFacts Prop_C36 Prop_C37 Model_fit.
Import ListNotations.
Open Scope R_scope.

(* A chain of derivatives on an open set *)
Lemma chain_derive_n (F : nat -> R -> R) (D : R -> Prop) n : (forall t, D t -> locally t D) -> (forall k t, (k < n)%nat -> D t -> is_derive (F k) t (F (S k) t)) -> forall T, D T -> is_derive_n (F 0%nat) n T (F n T).
Proof.
  intros O H. assert (E : forall k, (k <= n)%nat -> forall t, D t -> Derive_n (F 0%nat) k t = F k t).
  { induction k as [|k IH]; intros Hk t Ht; [reflexivity|]. cbn [Derive_n]. rewrite (Derive_ext_loc _ (F k)).
    - apply is_derive_unique, H; auto; lia.
    - generalize (O t Ht). apply filter_imp. intros y Hy. apply IH; [lia|auto]. }
  intros T HT. destruct n as [|n]; [reflexivity|]. cbn [is_derive_n]. apply (is_derive_ext_loc (F n)).
  - generalize (O T HT). apply filter_imp. intros y Hy. symmetry. apply E; [lia|auto].
  - apply H; auto.
Qed.
Definition jet_ok (J : R -> jet) (D : R -> Prop) : Prop := forall t, D t ->
  is_derive (fun t => j0 (J t)) t (j1 (J t)) /\ is_derive (fun t => j1 (J t)) t (j2 (J t)) /\ is_derive (fun t => j2 (J t)) t (j3 (J t)).
Definition anywhere (t : R) : Prop := True.
Lemma jet_derive_n J D n : jet_ok J D -> (forall t, D t -> locally t D) -> forall T, D T -> (n <= 3)%nat -> is_derive_n (fun t => j0 (J t)) n T (match n with 0 => j0 (J T) | 1 => j1 (J T) | 2 => j2 (J T) | _ => j3 (J T) end)%nat.
Proof.
  intros K O T HT Hn. pose (F := fun (k : nat) (t : R) => match k with 0 => j0 (J t) | 1 => j1 (J t) | 2 => j2 (J t) | _ => j3 (J t) end%nat).
  change (is_derive_n (F 0%nat) n T (F n T)). apply (chain_derive_n F D n O); auto. intros k t Hk Ht. destruct (K t Ht) as (A & B & C). destruct k as [|[|[|k]]]; auto; lia.
Qed.

Lemma jet_poly cs : jet_ok (ext_poly cs) anywhere.
Proof. intros t _. cbn. splits; apply horner_derive. Qed.
Lemma d_affine (f : R -> R) (o s x l : R) : is_derive f (o + s * x) l -> is_derive (fun x => f (o + s * x)) x (s * l).
Proof. intros H. eapply is_derive_eq; [apply (is_derive_comp f (fun x => o + s * x)); [exact H|]|]; [instantiate (1 := s); auto_derive; [exact I|ring]|reflexivity]. Qed.
Lemma d_affine_c (c : R) (f : R -> R) (o s x l : R) : is_derive f (o + s * x) l -> is_derive (fun x => c * f (o + s * x)) x (c * s * l).
Proof. intros H. eapply is_derive_eq; [apply is_derive_scal, d_affine, H|]. asR. ring. Qed.
Lemma jet_stable cs o s : jet_ok (ext_stable cs o s) anywhere.
Proof.
  intros t _. cbn -[pow ext_horner ext_der]. splits.
  - apply (d_affine (fun y => ext_horner cs y)), horner_derive.
  - eapply is_derive_eq; [apply (d_affine_c s (fun y => ext_horner (ext_der cs) y)), horner_derive|]. ring.
  - eapply is_derive_eq; [apply (d_affine_c (s ^ 2) (fun y => ext_horner (ext_der (ext_der cs)) y)), horner_derive|]. ring.
Qed.
Lemma stable_4 cs o s t : is_derive (fun t => j3 (ext_stable cs o s t)) t (ext_stable_4 cs o s t).
Proof. cbn -[pow ext_horner ext_der]. unfold ext_stable_4. eapply is_derive_eq; [apply (d_affine_c (s ^ 3) (fun y => ext_horner (ext_der (ext_der (ext_der cs))) y)), horner_derive|]. ring. Qed.

(* Chebyshev polynomials: with E the halved polynomials of the second kind, T(k+1) = E(k+2) - E(k) and T(n)' = 2 n E(n) *)
Fixpoint chebE (n : nat) (x : R) : R := match n with O => 0 | S m => match m with O => / 2 | S k => 2 * x * chebE m x - chebE k x end end.
Lemma chebT_SS n x : chebT (S (S n)) x = 2 * x * chebT (S n) x - chebT n x.
Proof. reflexivity. Qed.
Lemma chebE_SS n x : chebE (S (S n)) x = 2 * x * chebE (S n) x - chebE n x.
Proof. reflexivity. Qed.
Lemma chebT_E x n : chebT (S n) x = chebE (S (S n)) x - chebE n x /\ chebT (S (S n)) x = chebE (S (S (S n))) x - chebE (S n) x.
Proof.
  induction n as [|n [A B]].
  - cbn. split; field.
  - split; [exact B|]. rewrite chebT_SS, (chebE_SS (S (S n))), A, B, (chebE_SS (S n)), (chebE_SS n). ring.
Qed.
Lemma chebT_derive n : forall x, is_derive (chebT n) x (2 * INR n * chebE n x) /\ is_derive (chebT (S n)) x (2 * INR (S n) * chebE (S n) x).
Proof.
  induction n as [|n IH]; intros x.
  - split.
    + apply (is_derive_fext (fun _ => 1)); [reflexivity|]. eapply is_derive_eq; [apply (is_derive_const 1)|]. cbn. asR. ring.
    + apply (is_derive_fext (fun x => x)); [reflexivity|]. eapply is_derive_eq; [apply (is_derive_id x)|]. cbn. asR. field.
  - destruct (IH x) as [A B]. split; [exact B|].
    apply (is_derive_fext (fun x => 2 * x * chebT (S n) x - chebT n x)); [reflexivity|].
    eapply is_derive_eq; [apply (is_derive_minus (fun x => 2 * x * chebT (S n) x) (chebT n)); [apply (is_derive_mult (fun x => 2 * x) (chebT (S n))); [|exact B|intros; apply Rmult_comm]|exact A]|].
    + instantiate (1 := 2). auto_derive; [exact I|ring].
    + asR. unfold minus, plus, mult, opp; cbn -[chebT chebE INR]. rewrite (proj1 (chebT_E x n)), chebE_SS, (S_INR (S n)), (S_INR n). ring.
Qed.
Fixpoint chebDsum (k : nat) (cs : list R) (y : R) : R := match cs with [] => 0 | c :: cs' => c * (2 * INR k * chebE k y) + chebDsum (S k) cs' y end.
Lemma chebsum_derive cs : forall k y, is_derive (chebsum k cs) y (chebDsum k cs y).
Proof.
  induction cs as [|c cs IH]; intros k y.
  - apply (is_derive_fext (fun _ => 0)); [reflexivity|apply (is_derive_const 0)].
  - apply (is_derive_fext (fun y => c * chebT k y + chebsum (S k) cs y)); [reflexivity|]. apply (is_derive_plus (fun y => c * chebT k y) (chebsum (S k) cs)); [|apply IH]. apply is_derive_scal, (proj1 (chebT_derive k y)).
Qed.
Lemma chebder_from_sum y cs : forall k, chebDsum (S (S k)) cs y = chebsum (S k) (chebder_from (S (S k)) cs) y + nth 0 (chebder_from (S (S k)) cs) 0 * chebE k y + nth 1 (chebder_from (S (S k)) cs) 0 * chebE (S k) y.
Proof.
  induction cs as [|c cs IH]; intros k; [cbn; ring|]. cbn [chebDsum chebder_from chebsum nth]. rewrite IH. cbv zeta. cbn [nth chebsum]. rewrite (proj1 (chebT_E y k)). set (t := chebder_from (S (S (S k))) cs). ring.
Qed.
Lemma chebsum_scale c cs y : forall k, chebsum k (map (Rmult c) cs) y = c * chebsum k cs y.
Proof. induction cs as [|d cs IH]; intros k; cbn [map chebsum]; [ring|]. rewrite IH. ring. Qed.
Lemma chebder_sum cs s y : chebsum 0 (ext_chebder cs s) y = s * chebDsum 0 cs y.
Proof.
  destruct cs as [|c0 cs]; [cbn; ring|]. unfold ext_chebder. destruct cs as [|c1 cs]; [cbn; ring|].
  cbn [chebder_from]. cbv zeta. rewrite chebsum_scale. f_equal. cbn [chebDsum chebsum]. rewrite (chebder_from_sum y cs 0).
  set (t := chebder_from 2 cs). cbn [chebE chebT INR]. field.
Qed.
Lemma chebval_derive cs o s x : is_derive (fun x => ext_chebval x cs o s) x (ext_chebval x (ext_chebder cs s) o s).
Proof. unfold ext_chebval. rewrite chebder_sum. apply (d_affine (chebsum 0 cs)), chebsum_derive. Qed.
Lemma jet_cheb cs o s : jet_ok (ext_cheb cs (ext_chebder cs s) (ext_chebder (ext_chebder cs s) s) (ext_chebder (ext_chebder (ext_chebder cs s) s) s) o s) anywhere.
Proof. intros t _. cbn -[ext_chebval ext_chebder]. splits; apply chebval_derive. Qed.

Lemma jet_exp J D : jet_ok J D -> jet_ok (fun t => ext_exp (J t)) D.
Proof.
  intros K t Ht. destruct (K t Ht) as (A & B & C). cbn -[pow]. pose proof (d_exp (fun t => j0 (J t)) t _ A) as E. splits.
  - exact E.
  - apply (d_log1 (fun t => exp (j0 (J t))) (fun t => j1 (J t))); auto.
  - apply (d_log2 (fun t => exp (j0 (J t))) (fun t => j1 (J t)) (fun t => j2 (J t))); auto.
Qed.
Lemma jet_ln_tau J Tc : 0 < Tc -> jet_ok J anywhere -> jet_ok (fun T => ext_ln_tau T Tc J) (fun T => T < Tc).
Proof.
  intros HTc K T HT. destruct (K (ln (1 - T / Tc)) I) as (A & B & C). cbn -[pow].
  assert (G : forall (f : R -> R) (l : R), is_derive f (ln (1 - T / Tc)) l -> is_derive (fun T => f (ln (1 - T / Tc))) T (- l * / (Tc - T))).
  { intros f l H. eapply is_derive_eq; [apply (is_derive_comp f (fun T => ln (1 - T / Tc))); [exact H|now apply d_lntau]|]. unfold scal; cbn. unfold mult; cbn. ring. }
  pose proof (G _ _ A) as A'. pose proof (G _ _ B) as B'. pose proof (G _ _ C) as C'.
  assert (R1 : is_derive (fun T => / (Tc - T)) T (/ (Tc - T) ^ 2)) by (auto_derive; [lra|field; lra]).
  assert (R2 : is_derive (fun T => (/ (Tc - T)) ^ 2) T (2 * / (Tc - T) ^ 3)) by (auto_derive; [lra|field; lra]).
  splits; [exact A'| |].
  - eapply is_derive_eq; [apply (is_derive_mult (fun T => - j1 (J (ln (1 - T / Tc)))) (fun T => / (Tc - T))); [apply (is_derive_opp (fun T => j1 (J (ln (1 - T / Tc))))), B'|exact R1|intros; apply Rmult_comm]|].
    unfold plus, mult, opp; cbn. field. lra.
  - eapply is_derive_eq; [apply (is_derive_mult (fun T => j2 (J (ln (1 - T / Tc))) - j1 (J (ln (1 - T / Tc)))) (fun T => (/ (Tc - T)) ^ 2)); [apply (is_derive_minus (fun T => j2 (J (ln (1 - T / Tc)))) (fun T => j1 (J (ln (1 - T / Tc))))); [exact C'|exact B']|exact R2|intros; apply Rmult_comm]|].
    unfold plus, mult, opp, minus, plus, opp; cbn. field. lra.
Qed.

(* Antiderivatives *)
Lemma ext_polyint_cons c cs : ext_polyint (c :: cs) = c / INR (S (List.length cs)) :: ext_polyint cs.
Proof. reflexivity. Qed.
Lemma polyint_length cs : List.length (ext_polyint cs) = S (List.length cs).
Proof. induction cs as [|c cs IH]; [reflexivity|]. rewrite ext_polyint_cons. cbn [List.length]. now rewrite IH. Qed.
Lemma der_polyint cs : ext_der (ext_polyint cs) = cs.
Proof.
  induction cs as [|c cs IH]; [reflexivity|]. rewrite ext_polyint_cons. destruct (ext_polyint cs) as [|a l] eqn:E; [pose proof (polyint_length cs) as H; rewrite E in H; discriminate|].
  change (ext_der (c / INR (S (List.length cs)) :: a :: l)) with (INR (List.length (a :: l)) * (c / INR (S (List.length cs))) :: ext_der (a :: l)). rewrite IH. f_equal. rewrite <- E, polyint_length. field. apply not_0_INR. lia.
Qed.
Lemma polyint_derive cs x : is_derive (fun x => ext_horner (ext_polyint cs) x) x (ext_horner cs x).
Proof. eapply is_derive_eq; [apply horner_derive|]. now rewrite der_polyint. Qed.
Lemma horner_app cs c x : ext_horner (cs ++ [c]) x = ext_horner cs x * x + c.
Proof.
  induction cs as [|d cs IH]; [unfold ext_horner; cbn; ring|]. cbn [app]. rewrite !horner_cons, IH, app_length. cbn [List.length]. rewrite Nat.add_1_r. cbn [pow]. ring.
Qed.
Lemma horner_last cs x : ext_horner cs x = ext_horner (removelast cs) x * x + last cs 0.
Proof. destruct cs as [|c cs]; [unfold ext_horner; cbn; ring|]. rewrite (app_removelast_last 0) at 1 by discriminate. apply horner_app. Qed.
Lemma polyint_over_x_derive cs x : 0 < x -> is_derive (ext_horner_log (fst (ext_polyint_over_x cs)) (snd (ext_polyint_over_x cs))) x (ext_horner cs x / x).
Proof.
  intros Hx. unfold ext_horner_log, ext_polyint_over_x. cbn [fst snd]. eapply is_derive_eq.
  - apply (is_derive_plus (fun x => last cs 0 * ln x) (fun x => ext_horner (ext_polyint (removelast cs)) x)); [|apply polyint_derive].
    apply is_derive_scal. instantiate (1 := / x). auto_derive; [auto|field; lra].
  - change (last cs 0 * / x + ext_horner (removelast cs) x = ext_horner cs x / x). rewrite (horner_last cs x). field. lra.
Qed.
(* Polynomials with the lowest power first *)
Fixpoint pval (p : list R) (x : R) : R := match p with [] => 0 | c :: p' => c + x * pval p' x end.
Lemma pval_horner p x : ext_horner (rev p) x = pval p x.
Proof. induction p as [|c p IH]; [reflexivity|]. cbn [rev pval]. rewrite horner_app, IH. ring. Qed.
Lemma pval_add p : forall q x, pval (padd p q) x = pval p x + pval q x.
Proof. induction p as [|a p IH]; intros [|b q] x; cbn [padd pval]; try ring. rewrite IH. ring. Qed.
Lemma pval_scale c p x : pval (map (Rmult c) p) x = c * pval p x.
Proof. induction p as [|a p IH]; cbn [map pval]; [ring|]. rewrite IH. ring. Qed.
Lemma pval_compose p a b x : pval (pcompose p a b) x = pval p (a + b * x).
Proof.
  induction p as [|c p IH]; [reflexivity|]. cbn [pcompose]. cbv zeta. rewrite !pval_add. cbn [pval]. rewrite !pval_scale, IH. ring.
Qed.
Lemma horner_map (f : R -> R) k cs x : (forall c, f c = k * c) -> ext_horner (map f cs) x = k * ext_horner cs x.
Proof. intros H. induction cs as [|c cs IH]; cbn [map]; [unfold ext_horner; cbn; ring|]. rewrite !horner_cons, IH, H, map_length. ring. Qed.

(* The integral of a function continued by straight lines *)
Definition dummy (lo hi : R) : method := {| calc := fun _ => Some 0; cder := fun _ _ => None; clogder := fun _ => None; cint := fun _ _ => None; cintT := fun _ _ => None; m_lo := lo; m_hi := Some hi |}.
Lemma dummy_range lo hi : 0 < lo -> lo < hi -> on_range (dummy lo hi) 0 1 lo hi (fun _ => 0).
Proof. intros. constructor; cbn; auto. intros; lra. Qed.
Lemma continuous_of_derive (f : R -> R) (x l : R) : is_derive f x l -> continuous f x.
Proof. intros H. apply (@ex_derive_continuous R_AbsRing R_NormedModule). now exists l. Qed.
Lemma whole_RInt (lo hi : R) (gl g gh Gl G Gh : R -> R) (ok : R -> Prop) : 0 < lo -> lo < hi -> gl lo = g lo -> gh hi = g hi ->
  (forall t, ok t -> t <= lo -> is_derive Gl t (gl t)) -> (forall t, lo <= t <= hi -> is_derive G t (g t)) -> (forall t, hi <= t -> is_derive Gh t (gh t)) ->
  (forall t, ok t -> t <= lo -> continuous gl t) -> (forall t, lo <= t <= hi -> continuous g t) -> (forall t, hi <= t -> continuous gh t) ->
  forall a b, (forall t, Rmin a b <= t <= Rmax a b -> ok t) ->
  is_RInt (whole lo hi gl g gh) a b (whole lo hi (fun t => Gl t - Gl lo + G lo) G (fun t => Gh t - Gh hi + G hi) b - whole lo hi (fun t => Gl t - Gl lo + G lo) G (fun t => Gh t - Gh hi + G hi) a).
Proof.
  intros P L E1 E2 D1 D2 D3 C1 C2 C3 a b OK. pose proof (dummy_range lo hi P L) as HR.
  apply (is_RInt_derive (V := R_CompleteNormedModule)).
  - intros t Ht. apply (whole_derive _ _ _ _ _ _ HR); auto; try lra.
    + intros H. eapply is_derive_eq; [apply (is_derive_plus (fun t => Gl t - Gl lo) (fun _ => G lo)); [apply (is_derive_minus Gl (fun _ => Gl lo)); [apply D1; auto|apply (is_derive_const (Gl lo))]|apply (is_derive_const (G lo))]|]. asR. unfold minus, plus, opp, zero; cbn. ring.
    + intros H. eapply is_derive_eq; [apply (is_derive_plus (fun t => Gh t - Gh hi) (fun _ => G hi)); [apply (is_derive_minus Gh (fun _ => Gh hi)); [apply D3; auto|apply (is_derive_const (Gh hi))]|apply (is_derive_const (G hi))]|]. asR. unfold minus, plus, opp, zero; cbn. ring.
  - intros t Ht. apply (whole_continuous _ _ _ _ _ _ HR); auto.
Qed.
